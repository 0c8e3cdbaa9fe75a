(** C58 and C59: THttpClient, and calls through it to a THttpServer. *)
From Coq Require Import String.
From Coq Require Import ZArith List Bool Lia.
From Coq Require Import Init.Byte.
From Coq Require Import ZifyBool ZifyNat ZifyN.
From Verif Require Import Base Bytes Utf8 Proto Spec Laws StructFacts Binary BinaryLaws
  SpecBinary Compact CompactLaws SpecCompact CodecFacts JsonText MsgLaws Rpc RpcFacts RpcSys
  PropsRpc HttpServer HttpFacts Transport HttpClient HttpClientFacts HttpRpcFacts.
Import ListNotations.
Open Scope Z_scope.
Open Scope list_scope.

(** * C58 *)

Definition any_legal : header -> bool := fun _ => true.

(** Whatever the program does and whatever becomes of its requests: each flush
    that sends a request sends what was written since the flush before, once. *)
Theorem C58_requests : forall cf legal l, (forall h, legal h = true) ->
  map snd (posts (c_log (snd (hrun cf legal l hc_new)))) = requests [] l.
Proof. intros cf legal l Hl. apply (run_spec cf legal Hl l hc_new). Qed.

(** Every request is labelled as Thrift and with the length of its body. *)
Theorem C58_labelled : forall cf legal l n t hs b,
  In (Posted n t hs b) (c_log (snd (hrun cf legal l hc_new))) ->
  t = target cf
  /\ exists rest, hs = (lit "Content-Type", lit "application/x-thrift")
                       :: (lit "Content-Length", int_text (Z.of_nat (length b))) :: rest.
Proof.
  intros cf legal l.
  assert (G : forall l s, Forall (fun e => match e with
    | Posted n t hs b => t = target cf
        /\ exists rest, hs = (lit "Content-Type", lit "application/x-thrift")
             :: (lit "Content-Length", int_text (Z.of_nat (length b))) :: rest
    | _ => True end) (c_log s) ->
    Forall (fun e => match e with
    | Posted n t hs b => t = target cf
        /\ exists rest, hs = (lit "Content-Type", lit "application/x-thrift")
             :: (lit "Content-Length", int_text (Z.of_nat (length b))) :: rest
    | _ => True end) (c_log (snd (hrun cf legal l s)))).
  { clear l. induction l as [|o l IH]; intros s Hs; [exact Hs|].
    rewrite hrun_eq. cbn [snd]. apply IH. destruct o as [| |b|f|k sz|h].
    - cbn [hstep snd]. unfold hc_open. cbn [c_log]. apply Forall_app.
      split; [exact Hs|repeat constructor].
    - rewrite step_close. unfold hc_close. destruct (c_conn s); [|exact Hs].
      cbn [snd c_log]. apply Forall_app. split; [exact Hs|repeat constructor].
    - exact Hs.
    - rewrite step_flush. unfold hc_flush.
      assert (Hr : Forall (fun e => match e with
        | Posted n t hs b => t = target cf
            /\ exists rest, hs = (lit "Content-Type", lit "application/x-thrift")
                 :: (lit "Content-Length", int_text (Z.of_nat (length b))) :: rest
        | _ => True end) (c_log (reopened cf s))).
      { destruct (reopened_same cf s) as (_ & _ & _ & _ & _ & _ & _ & _ & ->).
        apply Forall_app. split; [exact Hs|]. destruct (c_conn s); repeat constructor. }
      fold (reopened cf s). destruct (forallb legal _); [|exact Hr].
      destruct f as [e|e|r]; cbn [snd c_log]; [exact Hr| |];
        (apply Forall_app; split; [exact Hr|]; constructor; [|constructor];
         split; [reflexivity|]; eexists; reflexivity).
    - cbn [hstep]. unfold hc_read. destruct (c_resp s); exact Hs.
    - exact Hs. }
  intros n t hs b Hin. specialize (G l hc_new ltac:(constructor)).
  rewrite Forall_forall in G. exact (G _ Hin).
Qed.

(** ... and addressed to the path given; with a plain proxy to the whole URL. *)
Theorem C58_target : forall cf legal l n t hs b,
  In (Posted n t hs b) (c_log (snd (hrun cf legal l hc_new))) ->
  (proxied cf = None \/ https cf = true -> t = path cf)
  /\ (proxied cf <> None -> https cf = false ->
      t = lit "http://" ++ fst (origin cf) ++ lit ":" ++ int_text (snd (origin cf)) ++ path cf).
Proof.
  intros cf legal l n t hs b Hin. destruct (C58_labelled cf legal l n t hs b Hin) as [-> _].
  unfold target. split.
  - intros [->| ->]; [reflexivity|]. destruct (proxied cf); reflexivity.
  - intros Hp ->. destruct (proxied cf); [reflexivity|contradiction].
Qed.

Example C58_target_ex :
  let cf := mkconf true (lit "example.org", 443) (lit "/rpc") (Some ((lit "proxy", 3128), None))
              (lit "Python/THttpClient") in
  c_log (snd (hrun cf any_legal [HFlush (Unanswered EOSError)] hc_new))
  = [Opened 0 (lit "proxy", 3128) (Some ((lit "example.org", 443), None));
     Posted 0 (lit "/rpc")
       [(lit "Content-Type", lit "application/x-thrift"); (lit "Content-Length", lit "0");
        (lit "User-Agent", lit "Python/THttpClient")] []].
Proof. vm_compute. reflexivity. Qed.

(** One connection at a time, one request per connection, provided open() is not
    called while open. *)
Theorem C58_connections : forall cf legal l, (forall h, legal h = true) ->
  disciplined false l = true ->
  lifecycle 0 None (c_log (snd (hrun cf legal l hc_new))) = true.
Proof.
  intros cf legal l Hl D. apply life_lifecycle.
  destruct (run_alive cf legal Hl l hc_new D) as (cur & E & _).
  { exists None. split; reflexivity. }
  rewrite E. discriminate.
Qed.

(** readAll after a flush gets the first bytes of the body of the response to
    that flush, however it arrives and whatever the status; if there are not that
    many, EOFError. *)
Theorem C58_reply : forall cf legal r s sched sz, (forall h, legal h = true) -> 0 <= sz ->
  exists s', hc_flush cf legal (Answered r) s = (Ok tt, s') /\
  exists sched', readAll_t sched_read sz (sched, s')
    = if sz <=? Z.of_nat (length (r_body r))
      then (Ok (firstn (Z.to_nat sz) (r_body r)),
            (sched', with_resp s' (skipn (Z.to_nat sz) (r_body r))))
      else (Raise EEOFError, (sched', with_resp s' [])).
Proof.
  intros cf legal r s sched sz Hl Hsz. eexists.
  split; [rewrite (flush_eq cf legal Hl); reflexivity|]. unfold readAll_t.
  match goal with |- context [(sched, ?t)] => change t with (with_resp t (r_body r)) end.
  edestruct (readAll_spec (S (Z.to_nat sz)) sched) as (sched' & E);
    [|split; [apply Z.le_refl|exact Hsz]|].
  { rewrite Z.sub_0_r. lia. }
  exists sched'. rewrite E, !Z.sub_0_r. reflexivity.
Qed.

(** The Cookie header of a request is the first Set-Cookie value of the last
    response received, and there is none if that response had none. *)
Theorem C58_cookie : forall cf legal l r, (forall h, legal h = true) ->
  (forall h, In h (match last_custom None l with Some c => c | None => [] end) ->
     fst h <> lit "Cookie") ->
  let s := snd (hrun cf legal l hc_new) in
  exists n hs b, last (c_log (snd (hc_flush cf legal (Answered r) s))) (Closed 0)
                 = Posted n (target cf) hs b
    /\ b = pending [] l
    /\ map snd (filter (fun h => name_eqb (fst h) (lit "Cookie")) hs)
       = match cookie (last_headers None l) with Some v => [v] | None => [] end.
Proof.
  intros cf legal l r Hl Hc s.
  destruct (run_spec cf legal Hl l hc_new) as (_ & Eb & Eh & Ec). fold s in Eb, Eh, Ec.
  cbn [hc_new c_wbuf c_hdrs c_custom] in Eb, Eh, Ec.
  rewrite (flush_eq cf legal Hl). cbn zeta. cbn [snd c_log].
  eexists. eexists. eexists. split; [apply last_last|]. split; [exact Eb|].
  unfold req_headers, headers_for. cbn [c_custom c_hdrs]. rewrite Eh, Ec.
  unfold header in *. rewrite !filter_app, !map_app.
  assert (N : forall c, (forall h, In h c -> fst h <> lit "Cookie") ->
    filter (fun h : list Z * list Z => name_eqb (fst h) (lit "Cookie")) c = []).
  { induction c as [|a c IH]; intros H; [reflexivity|]. cbn [filter].
    assert (Ha : name_eqb (fst a) (lit "Cookie") = false).
    { unfold name_eqb. destruct (list_eq_dec Z.eq_dec (fst a) (lit "Cookie")) as [E|E];
        [|reflexivity]. exfalso. exact (H a (or_introl eq_refl) E). }
    rewrite Ha. apply IH. intros h Hh. apply H. right. exact Hh. }
  rewrite (N _ Hc).
  clear Hc Ec.
  destruct (proxied cf) as [[? [?|]]|]; try destruct (https cf);
    (match goal with |- context [last_custom ?o l] => destruct (last_custom o l) as [c|] end;
     [match goal with |- context [existsb ?g ?c] => destruct (existsb g c) end|]);
    match goal with |- context [cookie ?o] => destruct (cookie o) as [v|] end; reflexivity.
Qed.

(** A failed flush: what was written is gone, and there is nothing to read. *)
Theorem C58_failed : forall cf legal l f, (forall h, legal h = true) ->
  (forall r, f <> Answered r) ->
  let s := snd (hrun cf legal l hc_new) in
  exists e s', hc_flush cf legal f s = (Raise e, s')
    /\ c_wbuf s' = [] /\ forall k sz, fst (hc_read k sz s') = Raise EAttributeError.
Proof.
  intros cf legal l f Hl Hf s. rewrite (flush_eq cf legal Hl). cbn zeta.
  assert (Hs : c_resp (reopened cf s) = None).
  { destruct (reopened_same cf s) as (_ & _ & _ & _ & _ & _ & R & _). apply R.
    pose proof (run_sane cf legal Hl l hc_new (fun _ => eq_refl)) as S. fold s in S.
    unfold sane in S. destruct (c_conn s); [left; discriminate|right; auto]. }
  destruct f as [e|e|r]; [| |exfalso; eapply Hf; reflexivity];
    (eexists; eexists; split; [reflexivity|]; split; [reflexivity|];
     intros k sz; unfold hc_read; cbn [c_resp]; rewrite Hs; reflexivity).
Qed.

(** A header http.client refuses: nothing is sent, and what was written is gone. *)
Theorem C58_illegal : forall cf legal f s,
  (forall d, forallb legal (headers_for cf s d) = false) ->
  exists s', hc_flush cf legal f s = (Raise EValueError, s')
    /\ c_wbuf s' = [] /\ posts (c_log s') = posts (c_log s).
Proof.
  intros cf legal f s H. unfold hc_flush. fold (reopened cf s).
  destruct (reopened_same cf s) as (_ & _ & E3 & E4 & _ & _ & _ & E8 & _).
  match goal with |- context [forallb legal (headers_for cf ?t ?d)] =>
    assert (E : headers_for cf t d = headers_for cf s d)
      by (unfold headers_for; cbn [c_custom c_hdrs]; rewrite E3, E4; reflexivity) end.
  rewrite E, H. eexists. split; [reflexivity|]. split; [reflexivity|exact E8].
Qed.

(** Without a proxy, or with https, no request carries the proxy's credentials. *)
Theorem C58_no_credentials : forall cf legal l n t hs b,
  proxied cf = None \/ https cf = true ->
  (forall h, In h (match last_custom None l with Some c => c | None => [] end) ->
     fst h <> lit "Proxy-Authorization") ->
  forall f, In (Posted n t hs b)
      (match hc_flush cf legal f (snd (hrun cf legal l hc_new)) with
       | (_, s') => skipn (length (c_log (snd (hrun cf legal l hc_new)))) (c_log s') end) ->
  (forall h, legal h = true) ->
  ~ In (lit "Proxy-Authorization") (map fst hs).
Proof.
  intros cf legal l n t hs b Hp Hc f Hin Hl. set (s := snd (hrun cf legal l hc_new)) in *.
  destruct (run_spec cf legal Hl l hc_new) as (_ & _ & _ & Ec). fold s in Ec.
  assert (E : hs = req_headers cf (c_custom s) (c_hdrs s) (c_wbuf s)).
  { rewrite (flush_eq cf legal Hl) in Hin. cbn zeta in Hin.
    destruct (reopened_same cf s) as (_ & _ & _ & _ & _ & _ & _ & _ & EL).
    destruct f as [e|e|r]; cbn [c_log] in Hin; rewrite EL in Hin;
      rewrite <- ?app_assoc in Hin; rewrite skipn_app, skipn_all, Nat.sub_diag in Hin;
      cbn [skipn app] in Hin;
      (destruct (c_conn s); cbn [app] in Hin;
       repeat (destruct Hin as [Hin|Hin]; [try discriminate Hin|]); try contradiction;
       injection Hin as _ _ <- _; reflexivity). }
  subst hs. unfold req_headers, headers_for. cbn [c_custom c_hdrs]. rewrite Ec.
  cbn [hc_new c_custom]. rewrite !map_app, !in_app_iff. intros [H|[H|[H|[H|H]]]].
  - destruct H as [H|[H|[]]]; discriminate H.
  - destruct (proxied cf) as [[? [?|]]|]; try exact H. destruct Hp as [Hp|Hp]; [discriminate|].
    rewrite Hp in H. exact H.
  - match type of H with context [last_custom ?o l] => destruct (last_custom o l) as [c|] end;
      [match type of H with context [existsb ?g ?c] => destruct (existsb g c) end|];
      try contradiction; (destruct H as [H|[]]; discriminate H).
  - apply in_map_iff in H as (x & Ex & Hx). exact (Hc x Hx Ex).
  - destruct (cookie (c_hdrs s)) as [v|]; [|contradiction].
    destruct H as [H|[]]; discriminate H.
Qed.

(** ** What does not hold *)

Definition hc_conf : conf :=
  mkconf false (lit "example.org", 80) (lit "/rpc") None (lit "Python/THttpClient").
Definition plain_resp (st : Z) (b : string) : response := mkresp st [] (list_byte_of_string b).
Definition set_cookie (v : string) : response := mkresp 200 [(lit "set-cookie", lit v)] [].

(** The status is not looked at: the body of an error page is read like a reply. *)
Theorem C58_status_refuted : exists cf r, r_status r <> 200 /\
  let s := snd (hrun cf any_legal [HWrite [x01]; HFlush (Answered r)] hc_new) in
  fst (readAll_t sched_read 3 ([], s)) = Ok (list_byte_of_string "Not").
Proof.
  exists hc_conf, (plain_resp 404 "Not Found"). split; [discriminate|]. reflexivity.
Qed.

(** A cookie lasts until the first response that does not set one. *)
Theorem C58_cookie_refuted : exists cf l v,
  In (HFlush (Answered (set_cookie v))) l /\
  (forall r, In (HFlush (Answered r)) l -> forall x, In x (r_headers r) ->
     snd x = lit v) /\
  match last (c_log (snd (hrun cf any_legal l hc_new))) (Closed 0) with
  | Posted _ _ hs _ => ~ In (lit "Cookie") (map fst hs)
  | _ => False
  end.
Proof.
  exists hc_conf,
    [HFlush (Answered (set_cookie "id=7")); HFlush (Answered (plain_resp 200 ""));
     HFlush (Answered (plain_resp 200 ""))], "id=7"%string.
  split; [left; reflexivity|]. split.
  - intros r [E|[E|[E|[]]]] x Hx; injection E as <-; cbn in Hx; intuition subst; reflexivity.
  - vm_compute. intuition discriminate.
Qed.

(** A value goes back whole, attributes and all, and of two cookies only one does. *)
Theorem C58_cookies_refuted : exists cf r,
  match last (c_log (snd (hrun cf any_legal [HFlush (Answered r); HFlush (Answered r)]
                            hc_new))) (Closed 0) with
  | Posted _ _ hs _ =>
      length (filter (fun h => same_name (fst h) (lit "Set-Cookie")) (r_headers r)) = 2%nat
      /\ filter (fun h => name_eqb (fst h) (lit "Cookie")) hs
         = [(lit "Cookie", lit "a=1; Path=/; HttpOnly")]
  | _ => False
  end.
Proof.
  exists hc_conf, (mkresp 200 [(lit "Set-Cookie", lit "a=1; Path=/; HttpOnly");
                               (lit "Set-Cookie", lit "b=2")] []).
  vm_compute. split; reflexivity.
Qed.

(** With a proxy and plain http the connection is a tunnel to the server, and the
    proxy's credentials are also put into the request: the server gets them. *)
Theorem C58_proxy_refuted : exists cf proxy secret,
  proxied cf = Some (proxy, Some secret) /\
  c_log (snd (hrun cf any_legal [HWrite [x01]; HFlush (Answered (plain_resp 200 ""))] hc_new))
  = [Opened 0 proxy (Some (origin cf, Some secret));
     Posted 0 (lit "http://example.org:80/rpc")
       [(lit "Content-Type", lit "application/x-thrift"); (lit "Content-Length", lit "1");
        (lit "Proxy-Authorization", secret); (lit "User-Agent", agent cf)] [x01]].
Proof.
  exists (mkconf false (lit "example.org", 80) (lit "/rpc")
           (Some ((lit "proxy", 3128), Some (lit "Basic dTpw"))) (lit "Python/THttpClient")),
    (lit "proxy", 3128), (lit "Basic dTpw").
  split; [reflexivity|]. vm_compute. reflexivity.
Qed.

(** A custom User-Agent replaces the default one only if spelt so. *)
Theorem C58_agent_refuted : exists cf h,
  match last (c_log (snd (hrun cf any_legal [HCustom (Some [h]); HFlush (Unanswered EOSError)]
                            hc_new))) (Closed 0) with
  | Posted _ _ hs _ =>
      length (filter (fun h => same_name (fst h) (lit "User-Agent")) hs) = 2%nat
  | _ => False
  end.
Proof.
  exists hc_conf, (lit "user-agent", lit "mine"). vm_compute. reflexivity.
Qed.

(** open() while open leaves the old connection open for ever. *)
Theorem C58_open_refuted : exists cf,
  lifecycle 0 None (c_log (snd (hrun cf any_legal [HOpen; HOpen; HClose] hc_new))) = false.
Proof. exists hc_conf. vm_compute. reflexivity. Qed.

Example C58_ex :
  let l := [HOpen; HWrite [x01; x02]; HWrite [x03]; HFlush (Answered (set_cookie "id=7"));
            HCustom (Some [(lit "X-Trace", lit "9")]); HWrite [x04];
            HFlush (Unanswered EOSError); HFlush (Answered (plain_resp 200 "abcdef"));
            HRead 1 4; HRead 9 4; HClose; HRead 0 1; HClose] in
  let (o, s) := hrun hc_conf any_legal l hc_new in
  disciplined false l = true
  /\ requests [] l = [[x01; x02; x03]; [x04]; []]
  /\ map snd (posts (c_log s)) = [[x01; x02; x03]; [x04]; []]
  /\ skipn 6 o = [Raise EOSError; Ok []; Ok (list_byte_of_string "ab"); Ok (list_byte_of_string "cdef");
                  Ok []; Raise EAttributeError; Raise EAttributeError]
  /\ map fst (posts (c_log s))
     = [[(lit "Content-Type", lit "application/x-thrift"); (lit "Content-Length", lit "3");
         (lit "User-Agent", lit "Python/THttpClient")];
        [(lit "Content-Type", lit "application/x-thrift"); (lit "Content-Length", lit "1");
         (lit "User-Agent", lit "Python/THttpClient"); (lit "X-Trace", lit "9");
         (lit "Cookie", lit "id=7")];
        [(lit "Content-Type", lit "application/x-thrift"); (lit "Content-Length", lit "0");
         (lit "User-Agent", lit "Python/THttpClient"); (lit "X-Trace", lit "9");
         (lit "Cookie", lit "id=7")]].
Proof. vm_compute. repeat split; reflexivity. Qed.

(** * C59 *)

(** Calls over HTTP, with requests and responses lost at will: every caller gets
    the outcome of its own call or the network's exception, a lost response is
    never taken for the answer to a later call, and the handler runs once for each
    request that arrived, in order. *)
Theorem C59_history_binary : forall bf SL CL env H
    (handler : list Z -> list (option value) -> H -> hres * H) ms cf legal hung_up l h c,
  b_limits bf SL CL -> strict_ok bf -> 14 <= SL ->
  schema_ok env -> schema_closed env = true -> service_ok env SL ms ->
  (forall x, legal x = true) ->
  (forall n m args, In (n, m, args) l -> In m ms /\ sendable env SL CL (m_args m) args) ->
  http_history env handler SL CL l h ->
  c_wbuf c = [] ->
  exists c', http_calls (binary bf) env handler ms tt cf legal hung_up l (mkhsys tt 0 c h)
    = (fst (http_reference env handler hung_up l h),
       mkhsys tt 0 c' (snd (http_reference env handler hung_up l h)))
    /\ c_wbuf c' = [].
Proof.
  intros bf SL CL env H handler ms cf legal hung_up l h c HL Hs HSL He Hc Hms Hl Hall Hg Hw.
  destruct (http_calls_ok (binary_mlaws bf SL CL HL Hs) env He Hc handler ms Hms HSL tt I
    cf legal Hl hung_up l h (mkhsys tt 0 c h) Hall Hg) as (y & E & (_ & Hd & Hw' & Hh)).
  { repeat split. exact Hw. }
  exists (y_http y). split; [|exact Hw']. rewrite E. f_equal.
  destruct y as [[] d c' h']. cbn [y_depth y_h] in Hd, Hh. subst. reflexivity.
Qed.

Theorem C59_history_compact : forall kf SL CL env H
    (handler : list Z -> list (option value) -> H -> hres * H) ms cf legal hung_up l h c,
  c_limits kf SL CL -> 14 <= SL ->
  schema_ok env -> schema_closed env = true -> service_ok env SL ms ->
  (forall x, legal x = true) ->
  (forall n m args, In (n, m, args) l -> In m ms /\ sendable env SL CL (m_args m) args) ->
  http_history env handler SL CL l h ->
  c_wbuf c = [] ->
  exists x c', http_calls (compact kf) env handler ms c_init cf legal hung_up l
                 (mkhsys c_init 0 c h)
    = (fst (http_reference env handler hung_up l h),
       mkhsys x 0 c' (snd (http_reference env handler hung_up l h)))
    /\ c_wbuf c' = [].
Proof.
  intros kf SL CL env H handler ms cf legal hung_up l h c HL HSL He Hc Hms Hl Hall Hg Hw.
  destruct (http_calls_ok (compact_mlaws kf SL CL HL) env He Hc handler ms Hms HSL c_init
    ltac:(repeat split) cf legal Hl hung_up l h (mkhsys c_init 0 c h) Hall Hg)
    as (y & E & (_ & Hd & Hw' & Hh)).
  { repeat split. exact Hw. }
  exists (y_px y), (y_http y). split; [|exact Hw']. rewrite E. f_equal.
  destruct y as [x d c' h']. cbn [y_depth y_h y_px y_http] in *. subst. reflexivity.
Qed.

(** Without the condition on the arguments: a call whose arguments cannot be
    encoded leaves bytes behind that spoil the next call. *)
Theorem C59_failed_send_refuted : exists bad good,
  sendable rpc_env 100 100 (m_args rpc_add) good /\
  let call l := fst (http_calls (binary bdefault) rpc_env rpc_handler rpc_ms tt hc_conf
                       any_legal EOSError l (mkhsys tt 0 hc_new 0)) in
  call [(NetOk, rpc_add, good)] = [Ok (CReturn (Some (VInt 3)))] /\
  exists e e', call [(NetOk, rpc_add, bad); (NetOk, rpc_add, good)] = [Raise e; e']
    /\ e' <> Ok (CReturn (Some (VInt 3))).
Proof.
  exists [Some (VInt 99999999999); None], [Some (VInt 1); Some (VInt 2)].
  split; [apply rpc_add_sendable; lia|]. split; [vm_compute; reflexivity|].
  eexists. eexists. split; [vm_compute; reflexivity|]. discriminate.
Qed.

Example C59_ex :
  let l := [(NetOk, rpc_add, [Some (VInt 1); None]); (NetLostReply EOSError, rpc_add, [Some (VInt 5); None]);
            (NetLostRequest EOSError, rpc_ping, []); (NetOk, rpc_ping, []);
            (NetOk, rpc_add, [Some (VInt 3); None])] in
  http_history rpc_env rpc_handler 100 100 l 0
  /\ fst (http_calls (compact cdefault) rpc_env rpc_handler rpc_ms c_init hc_conf any_legal
            EOSError l (mkhsys c_init 0 hc_new 0))
     = [Ok (CReturn (Some (VInt 11))); Raise EOSError; Raise EOSError; Ok (CReturn None);
        Ok (CReturn (Some (VInt 13)))].
Proof.
  split; [|vm_compute; reflexivity].
  cbn [http_historyd rpc_handler received attrs with_defaults nth_error rpc_env m_args
       rpc_add rpc_ping m_name f_ty f_def].
  repeat split; intros; try discriminate; try (cbn; lia); reflexivity.
Qed.

(** Axioms used. *)
Print Assumptions C58_requests.
Print Assumptions C58_labelled.
Print Assumptions C58_target.
Print Assumptions C58_connections.
Print Assumptions C58_reply.
Print Assumptions C58_cookie.
Print Assumptions C58_failed.
Print Assumptions C58_illegal.
Print Assumptions C58_no_credentials.
Print Assumptions C58_status_refuted.
Print Assumptions C58_cookie_refuted.
Print Assumptions C58_cookies_refuted.
Print Assumptions C58_proxy_refuted.
Print Assumptions C58_agent_refuted.
Print Assumptions C58_open_refuted.
Print Assumptions C59_history_binary.
Print Assumptions C59_history_compact.
Print Assumptions C59_failed_send_refuted.
