(** C62: TLS sockets. *)
From Coq Require Import ZArith List Bool Lia Arith.
From Coq Require Import Init.Byte.
From Verif Require Import Base Tls TlsFacts.
Import ListNotations.
Open Scope Z_scope.

(** ** Clients *)

(** Whatever the configuration, the callback and the program, and whoever
    answers: bytes only ever go to a peer that completed the handshake, with a
    certificate from a loaded authority if one was asked for, and with the right
    name if the context checks names. *)
Theorem C62_sent : forall b cb host l n bs,
  In (n, bs) (s_wire (snd (history cb host l (new_sock b)))) ->
  exists p, peer_of n (s_peers (snd (history cb host l (new_sock b)))) = Some p
    /\ p_answers p = true
    /\ ((if b_custom b then x_mode (b_ctx b) else b_reqs b) <> CERT_NONE ->
        exists c, p_cert p = Some c /\ p_chain p = true)
    /\ (x_check (b_ctx b) = true -> p_name p = true).
Proof.
  intros b cb host l n bs H.
  exact (i_wire _ _ (history_inv cb host l _ _ (inv_new b)) n bs H).
Qed.

(** An open that returns has a connection to such a peer and, when verifying,
    the callback has accepted its certificate for the host and [is_valid] is
    set. *)
Theorem C62_opened : forall b cb host l addrs s',
  tls_open cb host addrs (snd (history cb host l (new_sock b))) = (Ok tt, s') ->
  exists n p, s_handle s' = Some n /\ peer_of n (s_peers s') = Some p
    /\ p_answers p = true
    /\ ((if b_custom b then x_mode (b_ctx b) else b_reqs b) <> CERT_NONE ->
        p_chain p = true /\ s_valid s' = true
        /\ exists c, p_cert p = Some c
           /\ cb (Some c) (match host with Some h => h | None => [] end) = Accepts)
    /\ (x_check (b_ctx b) = true -> p_name p = true).
Proof.
  intros b cb host l addrs s' H.
  set (s := snd (history cb host l (new_sock b))) in *.
  assert (I : inv b s) by (exact (history_inv cb host l _ _ (inv_new b))).
  unfold tls_open in H. destruct (s_handle s) eqn:Hh; [discriminate|].
  destruct addrs as [a|]; [|discriminate].
  destruct (connect _ a s) as [[u|e|] s1] eqn:C; try discriminate.
  destruct (connect_inv _ _ _ _ I Hh _ _ C) as (I1 & _ & _ & n & p & Hn & Hp & Hm).
  destruct (i_handle _ _ I1 n Hn) as (_ & _ & q & Hq & P1 & P2 & P3).
  rewrite Hp in Hq. inversion Hq; subst q. rewrite Hn, Hp in H. fold (wanted b).
  unfold verifies in H. rewrite Hm in H.
  destruct (wanted b) eqn:W.
  - inversion H; subst s'. exists n, p. repeat split; auto. all: congruence.
  - destruct P2 as (c & Hc & Hch); [discriminate|].
    unfold getpeercert in H. rewrite Hm, Hc in H.
    destruct (cb _ _) eqn:Cb; inversion H; subst s'. cbn.
    exists n, p. repeat split; eauto.
  - destruct P2 as (c & Hc & Hch); [discriminate|].
    unfold getpeercert in H. rewrite Hm, Hc in H.
    destruct (cb _ _) eqn:Cb; inversion H; subst s'. cbn.
    exists n, p. repeat split; eauto.
Qed.

(** No socket is lost: each one made is closed, once, or is the handle. *)
Theorem C62_ledger : forall b cb host l,
  let s := snd (history cb host l (new_sock b)) in
  NoDup (s_closed s)
  /\ forall n, (n < s_next s)%nat <->
       (In n (s_closed s) /\ s_handle s <> Some n)
       \/ (~ In n (s_closed s) /\ s_handle s = Some n).
Proof.
  intros b cb host l s. pose proof (history_inv cb host l _ _ (inv_new b)) as I. fold s in I.
  destruct I. split; [assumption|]. intros n. split.
  - intros Hn. destruct (i_all n Hn) as [H|H].
    + left. split; [exact H|]. intros E. destruct (i_handle n E) as (_ & N & _). auto.
    + right. destruct (i_handle n H) as (_ & N & _). auto.
  - intros [[H _]|[_ H]]; [auto|]. apply (i_handle n H).
Qed.

(** With neither a context nor an [ssl_version], what opens has been checked for
    chain and name, for any other arguments. *)
Theorem C62_default : forall a b cb host l addrs s',
  g_context a = None -> g_version a = None -> client_init a = Ok b ->
  tls_open cb host addrs (snd (history cb host l (new_sock b))) = (Ok tt, s') ->
  exists n p c, s_handle s' = Some n /\ peer_of n (s_peers s') = Some p
    /\ p_cert p = Some c /\ p_chain p = true /\ p_name p = true.
Proof.
  intros a b cb host l addrs s' Hc Hv Hi Ho.
  assert (B : b_custom b = false /\ b_ctx b = mkctx P_TLS_CLIENT CERT_REQUIRED true).
  { unfold client_init, base_init in Hi. cbn in Hi. rewrite Hc, Hv in Hi.
    destruct (g_validate a), (g_reqs a), (g_cert a) as [[|]|], (g_ca a) as [[|]|];
      cbn in Hi; inversion Hi; subst b; auto. }
  destruct B as [Bc Bx].
  destruct (C62_opened _ _ _ _ _ _ Ho) as (n & p & Hn & Hp & _ & Hr & Hk).
  rewrite Bc, Bx in *. cbn in Hk. specialize (Hk eq_refl).
  assert (N : b_reqs b <> CERT_NONE).
  { intros E. set (s := snd (history cb host l (new_sock b))) in *.
    assert (I : inv b s) by (exact (history_inv cb host l _ _ (inv_new b))).
    unfold tls_open in Ho. destruct (s_handle s); [discriminate|].
    destruct addrs as [[|x r]|]; [discriminate| |discriminate].
    cbn [connect] in Ho. destruct (negb (a_socket x)); [discriminate|].
    assert (W : exists b', wrap false (match host with Some (_ :: _) => true | _ => false end)
              (a_loads x) (s_base s) = (b', Some KValue)).
    { destruct (i_conf _ _ I) as (S1 & S2 & S3 & S4 & _).
      unfold wrap. rewrite S1, Bc, S2, E. unfold set_mode. rewrite S4, Bx. cbn. eauto. }
    destruct W as [b' W]. rewrite W in Ho. discriminate. }
  destruct (Hr N) as (Hch & _ & c & Hcert & _).
  exists n, p, c. auto.
Qed.

(** A good peer, one whose certificate is for another name, and a client. *)
Definition good := mkpeer true (Some (mkcert (Some [RTuple [[commonName; [97]]]]))) true true.
Definition wrong_name :=
  mkpeer true (Some (mkcert (Some [RTuple [[commonName; [98]]]]))) true false.
Definition unsigned := mkpeer true (Some (mkcert None)) false true.
Definition tries (l : list peer) : option (list attempt) :=
  Some (map (fun p => mkattempt true true (Some p)) l).
Definition with_ca := mkargs None None None None (Some true) None false false.

Example C62_default_ex : exists b, client_init with_ca = Ok b
  /\ let r := history legacy (Some [97])
       [DoOpen (tries [unsigned; wrong_name]); DoOpen (tries [unsigned; wrong_name; good]);
        DoWrite [x01]; DoClose] (new_sock b) in
     fst r = [Raise (ETransport TT_NOT_OPEN); Ok tt; Ok tt; Ok tt]
     /\ s_wire (snd r) = [(4%nat, [x01])] /\ s_closed (snd r) = [4; 3; 2; 1; 0]%nat
     /\ s_valid (snd r) = true.
Proof. eexists. split; [reflexivity|]. vm_compute. auto. Qed.

(** [cert_reqs=CERT_NONE] (or [validate=False]) without a context or version
    does not turn verification off: the constructor still wants [ca_certs], and
    then every open fails (defect). *)
Theorem C62_no_verification_fails : forall a,
  g_context a = None -> g_version a = None ->
  g_reqs a = Some CERT_NONE /\ g_validate a = None
  \/ g_reqs a = None /\ g_validate a = Some false ->
  (g_ca a = None -> client_init a = Raise EValueError \/ client_init a = Raise EOSError)
  /\ (forall b, client_init a = Ok b -> forall cb host l x, In x
        (fst (history cb host (map DoOpen l) (new_sock b))) ->
        x = Raise (ETransport TT_NOT_OPEN) \/ x = Raise EOSError).
Proof.
  intros a Hc Hv Hr. split.
  - intros Ha. unfold client_init, base_init. cbn. rewrite Hc, Hv, Ha.
    destruct Hr as [[-> ->]|[-> ->]]; destruct (g_cert a) as [[|]|]; cbn; auto.
  - intros b Hb cb host l.
    assert (B : b_custom b = false /\ b_reqs b = CERT_NONE
                /\ x_check (b_ctx b) = true).
    { unfold client_init, base_init in Hb. cbn in Hb. rewrite Hc, Hv in Hb.
      destruct Hr as [[E1 E2]|[E1 E2]]; rewrite ?E1, ?E2 in Hb;
        destruct (g_cert a) as [[|]|], (g_ca a) as [[|]|]; cbn in Hb; rewrite ?E1 in Hb;
        inversion Hb; subst b; auto. }
    destruct B as (B1 & B2 & B3).
    assert (G : forall s, inv b s -> s_handle s = None -> forall x,
      In x (fst (history cb host (map DoOpen l) s)) ->
      x = Raise (ETransport TT_NOT_OPEN) \/ x = Raise EOSError).
    { induction l as [|o l IH]; intros s I Hh x Hx; [contradiction|].
      cbn [map history step] in Hx.
      assert (O : exists e s1, tls_open cb host o s = (Raise e, s1)
                /\ (e = ETransport TT_NOT_OPEN \/ e = EOSError) /\ s_handle s1 = None).
      { unfold tls_open. rewrite Hh. destruct o as [[|y r]|]; [cbn; eauto 8| |eauto 8].
        cbn [connect]. destruct (negb (a_socket y)); [eauto 8|].
        assert (W : exists b', wrap false (match host with Some (_ :: _) => true | _ => false end)
              (a_loads y) (s_base s) = (b', Some KValue)).
        { destruct (i_conf _ _ I) as (S1 & S2 & S3 & S4 & _).
          unfold wrap. rewrite S1, B1, S2, B2. unfold set_mode. rewrite S4, B3. eauto. }
        destruct W as [b' ->]. rewrite Hh. eauto 8. }
      destruct O as (e & s1 & E & Ee & H1). rewrite E in Hx.
      pose proof (step_inv cb host (DoOpen o) _ _ _ _ I E) as I1.
      specialize (IH _ I1 H1 x).
      destruct (history cb host (map DoOpen l) s1) as [xs s2]. cbn [fst] in *.
      destruct Hx as [<-|Hx]; [|auto]. destruct Ee as [-> | ->]; auto. }
    apply G; [apply inv_new|reflexivity].
Qed.

(** A callback that refuses leaves the connection open: the caller gets the
    exception, and a later write is sent to the refused peer (defect). *)
Theorem C62_refused_stays_open_refuted : exists b, client_init with_ca = Ok b
  /\ exists cb, let r := history cb (Some [97]) [DoOpen (tries [good]); DoWrite [x01]]
                           (new_sock b) in
     fst r = [Raise (ETransport TT_UNKNOWN); Ok tt] /\ s_wire (snd r) = [(0%nat, [x01])]
     /\ s_valid (snd r) = false.
Proof. eexists. split; [reflexivity|]. exists (fun _ _ => RaisesOther). vm_compute. auto. Qed.

(** [is_valid] is never cleared: it stays set after close and through a later
    open that the callback refuses (defect). *)
Theorem C62_stale_valid_refuted : exists a b cb, client_init a = Ok b
  /\ let r := history cb (Some [97]) [DoOpen (tries [good]); DoClose; DoOpen (tries [wrong_name])]
                (new_sock b) in
     fst r = [Ok tt; Ok tt; Raise (ETransport TT_UNKNOWN)]
     /\ s_valid (snd r) = true /\ s_handle (snd r) = Some 1%nat.
Proof.
  exists (mkargs None None None (Some P_TLS) (Some true) None false false).
  eexists. exists legacy. split; [reflexivity|]. vm_compute. auto.
Qed.

(** With an explicit [ssl_version] other than PROTOCOL_TLS_CLIENT and the
    default callback of Python 3.12 and later, nobody checks the name: a
    certificate for another host is accepted as valid (defect). *)
Theorem C62_name_unchecked_refuted : exists a b, client_init a = Ok b
  /\ g_reqs a = None /\ g_version a = Some P_TLS
  /\ let r := history match_always (Some [97]) [DoOpen (tries [wrong_name]); DoWrite [x01]]
                (new_sock b) in
     fst r = [Ok tt; Ok tt] /\ s_valid (snd r) = true /\ s_wire (snd r) = [(0%nat, [x01])].
Proof.
  exists (mkargs None None None (Some P_TLS) (Some true) None false false).
  eexists. split; [reflexivity|]. vm_compute. auto.
Qed.

(** Closing a socket that is not open raises AttributeError (defect). *)
Theorem C62_close_fails : forall s, s_handle s = None -> tls_close s = (Raise EAttributeError, s).
Proof. intros s H. unfold tls_close. rewrite H. reflexivity. Qed.

(** ** Servers *)

(** A transport is handed out only for a client that completed the handshake,
    with what certificate was asked for, and that the callback accepted for its
    address.  Without one the accepted socket has been closed. *)
Theorem C62_accepted : forall cb b loads p addr,
  let r := accept cb b loads p addr in
  let mode := if b_custom b then x_mode (b_ctx b) else b_reqs b in
  match r_result r with
  | Ok (Some v) =>
      p_answers p = true /\ r_plain_closed r = false /\ r_client_closed r = false
      /\ (mode = CERT_REQUIRED -> exists c, p_cert p = Some c)
      /\ (mode <> CERT_NONE -> (p_cert p <> None -> p_chain p = true) /\ v = true
          /\ exists h, addr = Some h /\ cb (p_cert p) h = Accepts)
  | Ok None => r_plain_closed r = true
  | Raise e => e = EValueError \/ e = EIndexError /\ addr = None
  | Diverge => False
  end.
Proof.
  intros cb b loads p addr r mode. unfold r, accept.
  destruct (wrap true false loads b) as [b' [[|]|]] eqn:W; cbn; auto.
  pose proof (wrap_mode _ _ _ _ _ W) as Hm. unfold wanted in Hm. fold mode in Hm.
  destruct (handshake (b_ctx b') true p) eqn:Hs; cbn; [|reflexivity].
  unfold handshake in Hs. apply andb_prop in Hs as [Hs _]. apply andb_prop in Hs as [H1 H2].
  unfold verifies, getpeercert. rewrite Hm in *.
  destruct mode; cbn.
  - repeat split; auto; congruence.
  - destruct addr as [h|]; [|cbn; auto].
    destruct (cb _ h) eqn:Cb; cbn; auto. destruct (p_cert p); cbn in *;
      repeat split; auto; try congruence; eauto.
  - destruct addr as [h|]; [|cbn; auto].
    destruct (cb _ h) eqn:Cb; cbn; auto. destruct (p_cert p); cbn in *; [|discriminate].
    repeat split; auto; try congruence; eauto.
Qed.

(** With a server context that does not check names, nothing is raised for an
    Internet client. *)
Theorem C62_accept_total : forall cb b loads p h, x_check (b_ctx b) = false ->
  exists o, r_result (accept cb b loads p (Some h)) = Ok o.
Proof.
  intros cb b loads p h H. unfold accept.
  destruct (wrap true false loads b) as [b' [[|]|]] eqn:W; cbn; eauto.
  - exfalso. unfold wrap in W. destruct b as [[pr m ch] cu rq ca ce ci]. cbn in *. subst ch.
    destruct cu; [destruct pr; discriminate|].
    destruct rq, pr, loads, ce, ci, ca; discriminate W.
  - destruct (negb _); cbn; eauto. destruct (verifies _); cbn; eauto. destruct (cb _ h); cbn; eauto.
Qed.

Definition server_args :=
  mkargs None None (Some CERT_REQUIRED) (Some P_TLS_SERVER) (Some true) (Some true) false false.
Example C62_accepted_ex : exists b, server_init false server_args = Ok b
  /\ r_result (accept legacy b true good (Some [97])) = Ok (Some true)
  /\ r_result (accept legacy b true wrong_name (Some [97])) = Ok None
  /\ r_result (accept legacy b true unsigned (Some [97])) = Ok None.
Proof. eexists. split; [reflexivity|]. vm_compute. auto. Qed.

(** TSSLServerSocket with neither a context nor an [ssl_version] cannot serve:
    without [ca_certs] it cannot be made, and with them accept raises ValueError
    for every client, leaving its socket open (defect). *)
Theorem C62_default_server_fails : forall d a,
  g_context a = None -> g_version a = None ->
  (g_ca a = None -> exists e, server_init d a = Raise e)
  /\ (forall b, server_init d a = Ok b -> forall cb loads p addr,
        r_result (accept cb b loads p addr) = Raise EValueError
        /\ r_plain_closed (accept cb b loads p addr) = false
      \/ r_result (accept cb b loads p addr) = Ok None /\ loads = false).
Proof.
  intros d a Hc Hv. split.
  - intros Ha. unfold server_init, base_init. cbn. rewrite Hc, Hv, Ha. cbn.
    destruct (match g_cert a with Some r => r | None => d end); eauto.
  - intros b Hb cb loads p addr.
    assert (B : b_custom b = false /\ b_ctx b = mkctx P_TLS_CLIENT CERT_REQUIRED true).
    { unfold server_init, base_init in Hb. cbn in Hb. rewrite Hc, Hv in Hb. cbn in Hb.
      destruct (match g_cert a with Some r => r | None => d end), (g_ca a) as [[|]|];
        inversion Hb; subst b; auto. }
    destruct B as [B1 B2]. unfold accept, wrap. rewrite B1, B2.
    destruct (b_reqs b); cbn; [auto| |];
      (destruct loads; [rewrite andb_false_r|]; cbn; [auto|]);
      destruct (b_cert b || b_ciphers b || b_ca b); cbn; auto.
Qed.

(** On a Unix socket a verifying server raises IndexError for every client that
    completes the handshake, leaving it open (defect). *)
Theorem C62_unix_refuted : exists a b, server_init false a = Ok b
  /\ let r := accept match_always b true good None in
     r_result r = Raise EIndexError /\ r_plain_closed r = false /\ r_client_closed r = false.
Proof. exists server_args. eexists. split; [reflexivity|]. vm_compute. auto. Qed.

(** ** Constructors *)

(** What a client's arguments ask for, the deprecated [validate] included. *)
Definition asked (a : args) : vmode :=
  match g_validate a, g_reqs a with
  | Some true, _ => CERT_REQUIRED
  | Some false, _ => CERT_NONE
  | None, Some m => m
  | None, None => CERT_REQUIRED
  end.

(** A client that can be made verifies as asked; nothing is taken beside a
    context; there is no other exception than these. *)
Theorem C62_construct : forall a,
  match client_init a with
  | Ok b =>
      (g_validate a = None \/ g_reqs a = None)
      /\ match g_context a with
         | Some c => b = mkbase c true CERT_NONE false false false
             /\ g_validate a = None /\ g_reqs a = None /\ g_version a = None /\ g_ca a = None
             /\ g_cert a = None /\ g_key a = false /\ g_ciphers a = false
         | None => b_custom b = false /\ b_reqs b = asked a
             /\ x_proto (b_ctx b) = match g_version a with Some p => p | None => P_TLS_CLIENT end
             /\ (x_check (b_ctx b) = true <-> x_proto (b_ctx b) = P_TLS_CLIENT)
             /\ (x_proto (b_ctx b) = P_TLS_CLIENT -> g_ca a = Some true)
             /\ g_cert a <> Some false
         end
  | Raise e =>
      (e = ETypeError /\ g_validate a <> None /\ g_reqs a <> None)
      \/ (e = EValueError /\ (g_context a <> None \/ g_ca a = None))
      \/ (e = EOSError /\ (g_cert a = Some false \/ g_ca a = Some false))
  | Diverge => False
  end.
Proof.
  intros [c v r p ca ce k ci]. unfold client_init, base_init, asked, new_ctx. cbn.
  destruct c as [c|], v as [[|]|], r as [r|], p as [[| |]|], ca as [[|]|], ce as [[|]|], k, ci; cbn;
    repeat split; try (intros; discriminate); auto 6;
    try (left; repeat split; discriminate);
    try (right; left; split; [reflexivity|left; discriminate]).
Qed.

(** A server likewise; it verifies nobody unless told to, and without a readable
    certificate there is none. *)
Theorem C62_construct_server : forall d a,
  match server_init d a with
  | Ok b =>
      match g_context a with
      | Some c => b = mkbase c true CERT_NONE false false false
      | None => b_custom b = false
          /\ b_reqs b = match g_reqs a with Some m => m | None => CERT_NONE end
          /\ (g_cert a = Some true \/ g_cert a = None /\ d = true)
      end
  | Raise e =>
      (e = EValueError /\ (g_context a <> None \/ g_ca a = None))
      \/ (e = EOSError /\ (g_cert a = Some false \/ g_ca a = Some false \/ d = false))
  | Diverge => False
  end.
Proof.
  intros d [c v r p ca ce k ci]. unfold server_init, base_init, new_ctx. cbn.
  destruct c as [c|], r as [r|], p as [[| |]|], ca as [[|]|], ce as [[|]|], k, ci, d; cbn;
    repeat split; try (intros; discriminate); auto 6;
    try (left; split; [reflexivity|left; discriminate]).
Qed.

(** A client refused by nobody but the callback has both its sockets closed. *)
Theorem C62_refused : forall cb b loads p addr v,
  r_result (accept match_always b loads p addr) = Ok (Some v) ->
  r_result (accept cb b loads p addr) = Ok None ->
  r_plain_closed (accept cb b loads p addr) = true
  /\ r_client_closed (accept cb b loads p addr) = true.
Proof.
  intros cb b loads p addr v. unfold accept.
  destruct (wrap true false loads b) as [b' [[|]|]]; cbn; try discriminate.
  destruct (negb _); cbn; [discriminate|]. destruct (verifies _); cbn; [|discriminate].
  destruct addr as [h|]; cbn; [|discriminate].
  intros _. destruct (cb _ h); cbn; [discriminate|split; reflexivity|split; reflexivity].
Qed.
Example C62_refused_ex : exists b, server_init false server_args = Ok b
  /\ r_result (accept match_always b true good (Some [98])) = Ok (Some true)
  /\ r_result (accept legacy b true good (Some [98])) = Ok None.
Proof. eexists. split; [reflexivity|]. vm_compute. auto. Qed.

(** ** The legacy callback *)

(** It accepts exactly if the first pair that names a commonName has the host,
    and every field before it is one to pass over. *)
Theorem C62_legacy : forall c host, legacy c host = Accepts <->
  exists before pairs more after, c = Some (mkcert (Some
      (before ++ RTuple ((commonName :: host :: more) :: pairs) :: after)))
    /\ Forall (fun f => match f with
         | ROther => True
         | RTuple ((key :: _ :: _) :: _) => key <> commonName
         | RTuple (_ :: _) => True
         | RTuple [] => False
         end) before.
Proof.
  assert (T : forall a b, text_eqb a b = true <-> a = b).
  { intros a b. unfold text_eqb. destruct (list_eq_dec Z.eq_dec a b); split; congruence. }
  intros c host. split.
  - destruct c as [[[l|]]|]; cbn; try discriminate. intros H.
    assert (G : exists before pairs more after,
      l = before ++ RTuple ((commonName :: host :: more) :: pairs) :: after
      /\ Forall (fun f => match f with
         | ROther => True
         | RTuple ((key :: _ :: _) :: _) => key <> commonName
         | RTuple (_ :: _) => True
         | RTuple [] => False
         end) before).
    { induction l as [|f l IH]; cbn [legacy_fields] in H; [discriminate|].
      assert (K : forall f0, match f0 with
         | ROther => True
         | RTuple ((key :: _ :: _) :: _) => key <> commonName
         | RTuple (_ :: _) => True
         | RTuple [] => False
         end -> legacy_fields l host = Accepts -> exists before pairs more after,
        f0 :: l = before ++ RTuple ((commonName :: host :: more) :: pairs) :: after
      /\ Forall (fun f => match f with
         | ROther => True
         | RTuple ((key :: _ :: _) :: _) => key <> commonName
         | RTuple (_ :: _) => True
         | RTuple [] => False
         end) before).
      { intros f0 H0 H1. destruct (IH H1) as (b & ps & m & a & -> & F).
        exists (f0 :: b), ps, m, a. split; [reflexivity|]. constructor; assumption. }
      destruct f as [[|kv ps]|]; [discriminate| |apply K; [exact Logic.I|exact H]].
      destruct kv as [|key [|value more]]; [apply K; [exact Logic.I|exact H]..|].
      destruct (text_eqb key commonName) eqn:E.
      - apply T in E. destruct (text_eqb value host) eqn:E2; [|discriminate].
        apply T in E2. subst. exists [], ps, more, l. auto.
      - apply K; [|exact H]. intros X. apply T in X. congruence. }
    destruct G as (b & ps & m & a & -> & F). exists b, ps, m, a. auto.
  - intros (b & ps & m & a & -> & F). cbn [legacy subject].
    induction F as [|f l Hf F IH]; cbn [app legacy_fields].
    + replace (text_eqb commonName commonName) with true by (symmetry; apply T; reflexivity).
      replace (text_eqb host host) with true by (symmetry; apply T; reflexivity). reflexivity.
    + destruct f as [[|kv qs]|]; [contradiction| |exact IH].
      destruct kv as [|key [|value more]]; try exact IH.
      destruct (text_eqb key commonName) eqn:E; [apply T in E; contradiction|exact IH].
Qed.

Example C62_legacy_ex :
  legacy (Some (mkcert (Some [ROther; RTuple [[[79]; [1]]]; RTuple [[commonName; [97]]]]))) [97]
    = Accepts.
Proof. vm_compute. reflexivity. Qed.

(** Axioms used. *)
Print Assumptions C62_sent.
Print Assumptions C62_opened.
Print Assumptions C62_ledger.
Print Assumptions C62_default.
Print Assumptions C62_no_verification_fails.
Print Assumptions C62_refused_stays_open_refuted.
Print Assumptions C62_stale_valid_refuted.
Print Assumptions C62_name_unchecked_refuted.
Print Assumptions C62_close_fails.
Print Assumptions C62_accepted.
Print Assumptions C62_accept_total.
Print Assumptions C62_default_server_fails.
Print Assumptions C62_unix_refuted.
Print Assumptions C62_construct.
Print Assumptions C62_construct_server.
Print Assumptions C62_refused.
Print Assumptions C62_legacy.
