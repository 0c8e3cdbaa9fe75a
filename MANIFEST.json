{"claims": [
 {"property": "C01", "status": "proved", "theorems": ["C01_binary_round_trip", "C01_binary_round_trip_equal"], "note": "generated-code path, all schemas and values, any transport bytes after the struct"},
 {"property": "C02", "status": "proved", "theorems": ["C02_compact_round_trip", "C02_compact_round_trip_equal", "C02_compact_write_reusable", "C02_compact_read_reusable"], "note": "generated-code path; also shows the protocol object is back in its initial state"},
 {"property": "C03", "status": "proved", "theorems": ["C03_json_round_trip", "C03_json_round_trip_equal", "C03_json_document", "C03_json_write_reusable", "C03_json_read_reusable", "C03_json_infinity_refuted", "C03_nearest_double"], "note": "finite doubles; infinity as a field value is written unquoted and unreadable (refuted)"},
 {"property": "C04", "status": "proved", "theorems": ["C04_binary_wire_format"], "note": ""},
 {"property": "C05", "status": "proved", "theorems": ["C05_compact_wire_format"], "note": ""},
 {"property": "C06", "status": "proved", "theorems": ["C06_binary_out_of_range", "C06_binary_in_range", "C06_compact_out_of_range", "C06_compact_in_range", "C06_binary_struct", "C06_compact_struct"], "note": ""},
 {"property": "C07", "status": "proved", "theorems": ["C07_binary_header_written", "C07_binary_strict_header_read", "C07_binary_old_header_read", "C07_binary_strict_refuses_old", "C07_binary_bad_version"], "note": ""},
 {"property": "C08", "status": "proved", "theorems": ["C08_compact_header_written", "C08_compact_header_read", "C08_compact_bad_id", "C08_compact_bad_version"], "note": ""},
 {"property": "C09", "status": "proved", "theorems": ["C09_json_schema_evolution", "C09_binary_schema_evolution", "C09_compact_schema_evolution"], "note": "binary, compact and JSON; for JSON no UTF-8 condition on ignored binaries is needed"},
 {"property": "C10", "status": "proved", "theorems": ["C10_json_skip_exact", "C10_binary_skip_exact", "C10_compact_skip_exact", "C10_binary_skip_non_utf8", "C10_compact_skip_non_utf8", "C10_skip_refuted"], "note": "binary, compact and JSON. The statement for arbitrary binary is refuted for binary/compact: skip decodes strings as UTF-8"},
 {"property": "C11", "status": "proved", "theorems": ["C11_binary_read_terminates", "C11_compact_read_terminates", "C11_binary_skip_terminates", "C11_compact_skip_terminates", "C11_binary_suffix", "C11_compact_suffix"], "note": "iteration bound is per loop, not summed over nested loops"},
 {"property": "C12", "status": "proved", "theorems": ["C12_binary_truncated", "C12_compact_truncated", "C12_binary_no_prefix", "C12_compact_no_prefix"], "note": ""},
 {"property": "C13", "status": "proved", "theorems": ["C13_binary_write_deep", "C13_compact_write_deep", "C13_binary_read_deep", "C13_compact_read_deep", "C13_binary_depth_restored", "C13_compact_depth_restored", "C13_full_read", "C13_full_write"], "note": "skip's own limit is the max_depth argument by construction; it is exercised in C10 (values nested at most 64 deep) and not stated separately"},
 {"property": "C14", "status": "proved", "theorems": ["C14_binary_limits", "C14_compact_limits", "C14_binary_string", "C14_binary_string_negative", "C14_binary_list", "C14_binary_list_negative", "C14_binary_map", "C14_binary_map_negative", "C14_compact_string", "C14_compact_list", "C14_compact_map", "C14_old_header_refuted"], "note": "holds for struct readers; the old-format message name escapes (refuted)"},
 {"property": "C15", "status": "proved", "theorems": ["C15_binary_read_agree", "C15_compact_read_agree", "C15_json_read_agree", "C15_binary_write_agree", "C15_compact_write_agree", "C15_json_write_agree", "C15_binary_write", "C15_compact_write", "C15_json_write", "C15_binary_read", "C15_compact_read", "C15_json_read", "C15_binary_negative_id", "C15_compact_negative_id", "C15_binary_no_depth_limit", "C15_compact_no_depth_limit", "C15_read_agree_refuted", "C15_write_agree_refuted", "C15_negative_schema_writes_nothing"], "note": "agreement on every input of the three protocols when no negative id or out-of-range size is met and the depth limit is not hit; the two defects of the statement proved for all schemas and lengths; plain agreement refuted"},
 {"property": "C16", "status": "proved", "theorems": ["C16_enough", "C16_short", "C16_nothing", "C16_any_stream", "C16_memory"], "note": ""},
 {"property": "C17", "status": "proved", "theorems": ["C17_history", "C17_stream", "C17_refill", "C17_read_zero_refuted"], "note": ""},
 {"property": "C18", "status": "proved", "theorems": ["C18_history", "C18_round_trip", "C18_stream", "C18_over_buffered", "C18_under_buffered", "C18_refill", "C18_too_big", "C18_empty_frame_refuted", "C18_negative_length_refuted"], "note": ""},
 {"property": "C19", "status": "proved", "theorems": ["C19_buffered", "C19_framed", "C19_next_buffered", "C19_sasl_refuted"], "note": ""},
 {"property": "C20", "status": "proved", "theorems": ["C20_write", "C20_complete", "C20_zero", "C20_closed"], "note": ""},
 {"property": "C21", "status": "proved", "theorems": ["C21_wire", "C21_read", "C21_round_trip", "C21_headers", "C21_payload", "C21_too_long", "C21_exact_limit_refuted"], "note": "zlib is an argument with the contract zlib_ok (data below the limit comes back complete); transform lists are repetitions of ZLIB, the only transform the code knows. C21_exact_limit_refuted: a payload of exactly the decompression limit may be refused."},
 {"property": "C22", "status": "proved", "theorems": ["C22_too_large", "C22_refused", "C22_accepted", "C22_framed_ok", "C22_terminates", "C22_failure", "C22_set_max", "C22_decompressed", "C22_flush", "C22_dialect", "C22_unknown", "C22_negative_size_refuted", "C22_tiny_frame", "C22_overrun_refuted", "C22_cut_short_refuted"], "note": "Proved for every stream, limit and allow-list. Refuted parts: a length with the top bit set and frames under 4 bytes raise struct.error rather than a transport error; header strings may run past the header section or be cut short."},
 {"property": "C23", "status": "proved", "theorems": ["C23_limit", "C23_after", "C23_unlimited_fails", "C23_hole_refuted"], "note": "for every transport, history and decompressor keeping the documented contract; defect witnesses: unlimited read after an exact end on the limit, data with a hole after SIZE_LIMIT"},
 {"property": "C24", "status": "proved", "theorems": ["C24_exactly_once", "C24_splits", "C24_chunking", "C24_receive", "C24_full_buffer", "C24_full_buffer_refuted"], "note": "any receive sizes for the contents and order; a receive that fills the buffer can close the connection (C24_full_buffer, _refuted)"},
 {"property": "C25", "status": "proved", "theorems": ["C25_next_request", "C25_reads_again", "C25_answered", "C25_stuck_forever", "C25_progress_fails"], "note": "progress proved for receives shorter than the buffer and no negative lengths; general statement refuted: C25_stuck_forever and C25_progress_fails"},
 {"property": "C26", "status": "proved", "theorems": ["C26_stays_closed", "C26_removed", "C26_marked", "C26_bad_length_poll", "C26_bad_length_select", "C26_closed_refuted", "C26_server_ends_refuted"], "note": "proved for connections marked closed; the general statement is refuted for both poll and select"},
 {"property": "C27", "status": "proved", "theorems": ["C27_worker_sees", "C27_isolated", "C27_complete_binary", "C27_isolation_refuted"], "note": "exactly what the worker sees; isolation refuted for malformed frames with bytes following, proved otherwise"},
 {"property": "C28", "status": "proved", "theorems": ["C28_last_registration", "C28_reply_unprefixed_binary", "C28_reply_unprefixed_compact", "C28_routed_binary", "C28_routed_compact", "C28_client_binary", "C28_client_compact", "C28_default_binary", "C28_default_compact", "C28_refused_binary", "C28_refused_compact", "C28_colon_refuted"], "note": "binary and compact, any registered services; service names containing a colon are misrouted (refuted)"},
 {"property": "C29", "status": "proved", "theorems": ["C29_two_way_binary", "C29_two_way_compact", "C29_one_way_binary", "C29_one_way_compact", "C29_unknown_binary", "C29_unknown_compact", "C29_transport_error_binary", "C29_transport_error_compact", "C29_unencodable_refuted"], "note": "binary and compact; an unencodable handler result gets no reply and leaves partial bytes (refuted)"},
 {"property": "C30", "status": "proved", "theorems": ["C30_success_wins_binary", "C30_call_binary", "C30_call_compact", "C30_returned", "C30_void", "C30_declared", "C30_undeclared", "C30_application"], "note": "binary and compact; unset fields arrive as their defaults"},
 {"property": "C31", "status": "proved", "theorems": ["C31_history_binary", "C31_history_compact", "C31_stale_binary", "C31_stale_compact", "C31_timeout_refuted"], "note": "pairing proved for all histories without failed calls; the stale-reply behaviour after a timeout is proved in general and the unconditional property refuted"},
 {"property": "C32", "status": "proved", "theorems": ["C32_partial_bytes_binary", "C32_wedged_compact", "C32_binary_refuted", "C32_compact_refuted"], "note": "the expected property is refuted; what happens instead is proved for every failing call"},
 {"property": "C33", "status": "proved", "theorems": ["C33_binary", "C33_compact", "C33_out_of_range", "C33_negative_id", "C33_negative_id_refuted", "C33_nested_required_refuted", "C33_bytes_for_string", "C33_too_long", "C33_bool_as_int"], "note": "C encoder of ext/protocol.tcc, binary.h, compact.h modelled function by function with machine integers, either byte order. Every well-typed value of every schema with ids in 0..32767 (the class that has a usable thrift_spec) gets the same outcome from both writers, also beyond the depth limit. Outside that class the claim is false and the counterexamples are proved: a schema with a negative id is written as an empty struct; required fields of nested structs unchecked; bytes accepted for strings."},
 {"property": "C34", "status": "proved", "theorems": ["C34_json_truncated_limit", "C34_json_truncated", "C34_json_no_prefix", "C34_json_read_terminates", "C34_json_skip_terminates", "C34_integer_at_end_fails", "C34_document_cut_fails", "C34_truncated_refuted"], "note": "with a limit every cut raises and every read terminates; without one a cut read never succeeds; a cut at a number diverges (refuted)"},
 {"property": "C35", "status": "proved", "theorems": ["C35_string_round_trip", "C35_string_text_valid", "C35_control_text_fails", "C35_reader_complete", "C35_lenient_escape_refuted"], "note": "round trip for every string, validity of the text without raw control characters, and the reader accepts every RFC 8259 string; with a raw control character the text is not JSON (refuted)"},
 {"property": "C36", "status": "proved", "theorems": ["C36_base64_round_trip", "C36_base64_unpadded", "C36_uuid_round_trip", "C36_uuid_exact"], "note": ""},
 {"property": "C37", "status": "proved", "theorems": ["C37_fix_spec", "C37_emitted", "C37_idempotent"], "note": "for every class graph and nesting; also on the tables the generator emits, and idempotent"},
 {"property": "C38", "status": "proved", "theorems": ["C38_frozen", "C38_hash_consistent", "C38_update_modifies", "C38_setdefault_modifies", "C38_removal_modifies", "C38_equal_unequal_hash", "C38_hash_refuted"], "note": "assignment and deletion raise and change nothing; update, setdefault, pop and clear modify (defect); hash consistency refuted by exhibiting equal dictionaries with different hashes"},
 {"property": "C39", "status": "proved", "theorems": ["C39_mutual_exclusion", "C39_request_order", "C39_no_lost_wakeup", "C39_release_succeeds", "C39_frames_in_order", "C39_reader_exclusion", "C39_reader_releases", "C39_flush_frame"], "note": "the code has one lock, on reading; proved for acquisitions released once each by their holder, which is what its context manager does; also frames are delivered in request order"},
 {"property": "C40", "status": "proved", "theorems": ["C40_at_most_once", "C40_matched", "C40_exactly_once", "C40_reply_fires", "C40_any_order", "C40_immediate", "C40_decoded_binary", "C40_decoded_compact", "C40_bad_body_never", "C40_bad_body_refuted", "C40_after_loss", "C40_retry_refuted"], "note": "for every interleaving of calls, frames and loss and every re-entrant user; exactly once when the connection is lost unless a reply with that sequence id had an unreadable body (refuted: such a request never fires); calls after the loss raise; a user that always retries loops for ever"},
 {"property": "C41", "status": "proved", "theorems": ["C41_oneway", "C41_other", "C41_at_most_once", "C41_sequence", "C41_two_way_binary", "C41_two_way_compact", "C41_one_way_binary", "C41_one_way_compact", "C41_mux_at_most_once", "C41_mux_oneway", "C41_mux_default_refuted", "C41_no_response_refuted", "C41_response_exception_fails", "C41_not_threaded", "C41_threaded_refuted"], "note": "never two responses and exactly one when do_POST returns, for every protocol, service, handler and request, also multiplexed; ordering as stated; refuted: no response when processing raises on a two-way message, default processor of a multiplexed one, ResponseException from a hand-written processor, threading server classes"},
 {"property": "C42", "status": "proved", "theorems": ["C42_zigzag", "C42_varint_written", "C42_varint_round_trip", "C42_varint_negative", "C42_varint_too_long"], "note": ""},
 {"property": "C43", "status": "proved", "theorems": ["C43_binary_in_range", "C43_compact_70_bits_partial", "C43_compact_refuted"], "note": "proved for binary; for compact the declared width is refuted and the 70-bit bound proved"},
 {"property": "C44", "status": "proved", "theorems": ["C44_simple", "C44_threaded_loop", "C44_threaded_closes", "C44_pool_survives", "C44_pool_closes", "C44_forking", "C44_forking_close", "C44_forking_parent", "C44_process_pool", "C44_simple_dies_refuted", "C44_not_closed_refuted", "C44_child_accepts_refuted"], "note": "contained for every Exception raised in processing, and in the forking server for OSError on close; refuted for BaseException, failures of accept, transport set-up and close"},
 {"property": "C45", "status": "proved", "theorems": ["C45_binary_required", "C45_compact_required", "C45_write_refused", "C45_read_refuted"], "note": "write side proved for any nesting level; read side refuted"},
 {"property": "C46", "status": "proved", "theorems": ["C46_binary_self_delimiting", "C46_compact_self_delimiting"], "note": ""},
 {"property": "C47", "status": "proved", "theorems": ["C47_encode_decode", "C47_decode_encode", "C47_encodable", "C47_decoded_scalar", "C47_unique"], "note": ""},
 {"property": "C48", "status": "proved", "theorems": ["C48_first", "C48_none", "C48_unresolved", "C48_already_open", "C48_create_refuted", "C48_option_refuted", "C48_open_close", "C48_isOpen"], "note": ""},
 {"property": "C49", "status": "proved", "theorems": ["C49_open_sound", "C49_open_complete", "C49_bad_status", "C49_terminates", "C49_stream", "C49_round_trip"], "note": ""},
 {"property": "C50", "status": "proved", "theorems": ["C50_sent", "C50_all_sent"], "note": ""},
 {"property": "C51", "status": "proved", "theorems": ["C51_stream", "C51_round_trip", "C51_spin_fails", "C51_empty_flush_fails", "C51_failed_flush"], "note": "zlib is an argument with the contract `codec`; refuted: endless read at the end of a non-raising transport, TypeError on an empty flush"},
 {"property": "C52", "status": "proved", "theorems": ["C52_inbound", "C52_ratio_refuted", "C52_outbound", "C52_reopen", "C52_open_stale"], "note": "inbound counters are swapped (refuted); close then open resets everything, open alone keeps stale bytes (defect)"},
 {"property": "C53", "status": "proved", "theorems": ["C53_sequential", "C53_shared", "C53_limit_refuted", "C53_race_refuted"], "note": "sequential correctness proved; refuted under interleaving and for the limit argument"},
 {"property": "C54", "status": "proved", "theorems": ["C54_binary_schema_evolution", "C54_compact_schema_evolution", "C54_shallow_can_be_dropped", "C54_binary_round_trip", "C54_compact_round_trip", "C54_round_trip_equal", "C54_binary_agrees", "C54_compact_agrees", "C54_deep_unknown_field_refuted", "C54_unknown_binary_refuted", "C54_negative_id_refuted"], "note": "C decoder of ext/protocol.tcc, binary.h, compact.h/.cpp modelled function by function on a TMemoryBuffer, mutable structs. Round trip, schema evolution and agreement with the Python reader proved; the three exceptions named in the statement are proved as refutations with witnesses."},
 {"property": "C55", "status": "proved", "theorems": ["C55_compact_total", "C55_binary_total", "C55_binary_terminates", "C55_binary_overread_refuted", "C55_binary_types", "C55_compact_types", "C55_depth", "C55_bool_byte_refuted", "C55_bad_utf8_refuted", "C55_skip_limit_refuted", "C55_varint_refuted", "C55_map_limit_refuted"], "note": "Termination, exceptions, prefix, types, limits and depth proved for all inputs; the uuid over-read and the differences from the Python readers named in the statement are proved as refutations with witnesses. Depth bound assumes default values without structs. Memory allocation is assumed not to fail."},
 {"property": "C56", "status": "proved", "theorems": ["C56_binary", "C56_compact"], "note": "Proved for list<bool> through the generated reader path of each protocol."},
 {"property": "C57", "status": "proved", "theorems": ["C57_json_document", "C57_json_message", "C57_simple_document", "C57_simple_unique", "C57_simple_message", "C57_infinity_refuted", "C57_control_refuted", "C57_struct_key_refuted", "C57_integer_limits"], "note": "RFC 8259 grammar is written out as an inductive relation. Proved for struct documents and messages of both protocols; the three exceptions named in the statement are proved with witnesses. json.dumps of a double in TSimpleJSONProtocol is any function giving JSON numbers on the doubles used."},
 {"property": "C58", "status": "proved", "theorems": ["C58_requests", "C58_labelled", "C58_target", "C58_connections", "C58_reply", "C58_cookie", "C58_failed", "C58_illegal", "C58_no_credentials", "C58_status_refuted", "C58_cookie_refuted", "C58_cookies_refuted", "C58_proxy_refuted", "C58_agent_refuted", "C58_open_refuted"], "note": "C58_requests, C58_labelled, C58_connections (open() not called while open), C58_reply, C58_cookie, C58_no_credentials hold; C58_failed and C58_illegal say what failure costs; the _refuted theorems are the defects named in the statement."},
 {"property": "C59", "status": "proved", "theorems": ["C59_history_binary", "C59_history_compact", "C59_failed_send_refuted"], "note": "For binary and compact; http.client and the network are arguments. C59_failed_send_refuted is the defect named in the statement."},
 {"property": "C60", "status": "proved", "theorems": ["C60_session", "C60_new", "C60_unknown_method", "C60_calls", "C60_unknown_protocol", "C60_unknown_transform_refuted", "C60_stale_headers_refuted"], "note": "THeaderProtocol with binary and compact sub-protocols over THeaderTransport (C21, C22). zlib is any pair that round-trips below the decompression limit. For framed dialects a body that runs past its frame is modelled as end of input rather than as a read of the next frame; requests in the theorems are whole messages, for which this does not matter. The missing error replies and the stale headers are proved as defects."},
 {"property": "C61", "status": "proved", "theorems": ["C61_wrong_state", "C61_nesting", "C61_unseen_fails"], "note": "all 43 methods of the API in any order on one object; what is not detected is proved as a defect"},
 {"property": "C62", "status": "proved", "theorems": ["C62_sent", "C62_opened", "C62_ledger", "C62_default", "C62_no_verification_fails", "C62_refused_stays_open_refuted", "C62_stale_valid_refuted", "C62_name_unchecked_refuted", "C62_close_fails", "C62_accepted", "C62_accept_total", "C62_default_server_fails", "C62_unix_refuted", "C62_construct", "C62_construct_server", "C62_refused", "C62_legacy"], "note": "the ssl module is described by its documented rules (top of Tls.v); the peer is an argument. Defects are proved as refutations."},
 {"property": "C63", "status": "proved", "theorems": ["C63_pipelined_binary", "C63_pipelined_compact", "C63_once", "C63_matched", "C63_lost", "C63_stranded", "C63_cancel_refuted", "C63_cancel_lost_refuted", "C63_bad_reply_refuted", "C63_failed_send_refuted", "C63_too_long", "C63_jammed_binary", "C63_jammed_compact", "C63_server_stops"], "note": "handler coroutines run at once; the stream's buffer limits and read_bytes of a negative length (Tornado library) are not modelled. Defects are proved as refutations."},
 {"property": "C64", "status": "proved", "theorems": ["C64_binary_typed", "C64_compact_typed", "C64_binary_relay", "C64_compact_relay", "C64_same_reader", "C64_binary_to_json", "C64_binary_to_accelerated", "C64_incomplete_refuted", "C64_unknown_fields_lost_refuted", "C64_compact_wide_refuted"], "note": "defaults containing structs are outside the hypotheses. Defects are proved as refutations."},
 {"property": "C65", "status": "proved", "theorems": ["C65_served_binary", "C65_served_compact", "C65_pieces", "C65_pieces_refuted", "C65_once", "C65_transport", "C65_transport_refuted", "C65_wrong_result", "C65_lost_result", "C65_resource_binary", "C65_resource_compact", "C65_resource_never", "C65_resource_refuted", "C65_unknown_binary", "C65_unknown_compact", "C65_malformed", "C65_stray_reply", "C65_failed_call_refuted"], "note": "Twisted itself (Deferred, Int32StringReceiver, loseConnection) is modelled from its documented behaviour. Defects are proved as refutations."},
 {"property": "C66", "status": "proved", "theorems": ["C66_history_binary", "C66_history_compact", "C66_arguments", "C66_one_version", "C66_lost_exception", "C66_lost_exception_refuted", "C66_one_way_unknown_refuted", "C66_one_way_two_way_refuted", "C66_unanswered_refuted", "C66_required_refuted"], "note": "Compatibility is the field-by-field relation of C09; what the reader does not know must be skippable (depth at most 64, binaries that are UTF-8, see C10). Defects are proved as refutations."},
 {"property": "C67", "status": "proved", "theorems": ["C67_buffered", "C67_framed", "C67_sasl", "C67_header_unframed", "C67_exact", "C67_binary", "C67_compact", "C67_within", "C67_sequence_binary", "C67_sequence_compact", "C67_empty_frame", "C67_zlib", "C67_zlib_lost", "C67_header_lost", "C67_header_spin_fails", "C67_zlib_refuted", "C67_header_refuted"], "note": "The methods of the two protocols are restated over any readBytes and shown equal to those of ExtRead.v; decoding over a transport is related to decoding in memory by a simulation. Passing an int where PyObject_CallFunction takes a Py_ssize_t is assumed to work. Defects are proved as exact losses and as concrete wrong results."},
 {"property": "C68", "status": "proved", "theorems": ["C68_read", "C68_deserialize", "C68_serialize", "C68_fast_serialize", "C68_fast_deserialize", "C68_slots_unobservable", "C68_binary_round_trip", "C68_compact_round_trip", "C68_json_round_trip", "C68_unescaped_keywords", "C68_escape_keywords_only", "C68_escape_safe", "C68_escape_injective", "C68_escape_clash_refuted", "C68_keyword_slots_fails", "C68_keyword_immutable_write_fails", "C68_keyword_immutable_validate_fails", "C68_keyword_immutable_hash_fails", "C68_keyword_encode_fails", "C68_keyword_decode_loses", "C68_keyword_immutable_decode_loses", "C68_keyword_refuted", "C68_hidden_write_fails", "C68_hidden_read_fails"], "note": "Generated read/write and the C codecs on objects with named attributes are related to the struct model of the other properties by a simulation. The keyword defects are proved for every class with such a field and every input. Not covered: dynamic, old_style, no_utf8strings options; positional arguments."},
 {"property": "C69", "status": "proved", "theorems": ["C69_fields_fixed", "C69_object_fixed", "C69_refused", "C69_no_attributes", "C69_mutable_set", "C69_ftype_lost", "C69_fname_lost", "C69_name_fails", "C69_fid_lost", "C69_round_trip_refuted", "C69_dict_reflexive", "C69_slots_reflexive", "C69_symmetric", "C69_equal_hash", "C69_nan_refuted"], "note": "Immutability is that of the object's own attributes; a mutable list held by it can change. Equality, identity and hash of attribute values are parameters with the laws stated as hypotheses."},
 {"property": "C70", "status": "proved", "theorems": ["C70_two_way", "C70_one_way", "C70_unknown", "C70_transport_error", "C70_call", "C70_history", "C70_late_reply_fails", "C70_partial_bytes_fails", "C70_routed", "C70_default", "C70_refused", "C70_client", "C70_versions", "C70_http_history", "C70_pipelined", "C70_refuted"], "note": "The decorating protocol object of the multiplexed processor may share any part of its state with the decorated one: the theorems hold for every way of sharing."},
 {"property": "C71", "status": "proved", "theorems": ["C71_read_or_valueerror", "C71_read_members", "C71_read_rejects", "C71_binary_exchange", "C71_compact_exchange", "C71_json_exchange", "C71_mutable_assign", "C71_mutable_construct", "C71_immutable_construct_loses", "C71_member_kept", "C71_decode_or_valueerror", "C71_decode_mutable", "C71_decode_immutable_loses", "C71_decode_leaves_ints", "C71_write_takes_members", "C71_decoded_write_fails", "C71_readers_agree_refuted"], "note": "Defects are stated as theorems: C71_immutable_construct_loses, C71_decode_immutable_loses, C71_decode_leaves_ints, C71_decoded_write_fails, C71_readers_agree_refuted. Programs as in C68 (plain names)."},
 {"property": "C72", "status": "proved", "theorems": ["C72_value", "C72_reference", "C72_module", "C72_literal", "C72_literal_exact", "C72_binary_fails", "C72_small_double_lost", "C72_double_refuted", "C72_infinite_fails", "C72_container_loses", "C72_map_loses", "C72_double_reference_lost", "C72_enum_accepts", "C72_bool", "C72_keyword_field_fails", "C72_unhashable_fails"], "note": "Defects are stated as theorems: C72_binary_fails, C72_small_double_lost, C72_double_refuted, C72_infinite_fails, C72_container_loses, C72_map_loses, C72_double_reference_lost, C72_enum_accepts, C72_bool, C72_keyword_field_fails, C72_unhashable_fails. Constants of exception type are outside; so is what frozen containers and immutable objects hash to."},
 {"property": "C73", "status": "proved", "theorems": ["C73_construct", "C73_shared", "C73_mutation_seen", "C73_unshared", "C73_copied", "C73_read_shared", "C73_fast_read_shared", "C73_immutable_read_apart", "C73_negative_fails", "C73_nested_default_fails", "C73_later_class_fails", "C73_value"], "note": "Sharing and failures are stated as theorems: C73_shared, C73_mutation_seen, C73_read_shared, C73_fast_read_shared, C73_negative_fails, C73_nested_default_fails, C73_later_class_fails. Objects are modelled in a heap of their own (Defaults.v); the codec models take defaults by value."},
 {"property": "C74", "status": "proved", "theorems": ["C74_call_exact", "C74_call", "C74_argument_lost", "C74_hidden_global_fails", "C74_reply", "C74_keyword_call_fails", "C74_as_modelled", "C74_dispatch", "C74_unknown", "C74_process", "C74_keyword_process_fails", "C74_exception_unanswered", "C74_exception_hides", "C74_undeclared_fails", "C74_exception_like_class_fails", "C74_syntax_error_fails", "C74_names_refuted"], "note": "Defects are the theorems C74_argument_lost, C74_hidden_global_fails, C74_keyword_call_fails, C74_keyword_process_fails, C74_exception_unanswered, C74_exception_hides, C74_exception_like_class_fails, C74_syntax_error_fails and the witness C74_names_refuted. C74_as_modelled: with the primitives of Rpc.v the plain client's method is the call modelled there."},
 {"property": "C75", "status": "proved", "theorems": ["C75_address", "C75_plain_int_fails", "C75_up", "C75_busy", "C75_twice_fails", "C75_file_deleted", "C75_restart", "C75_live_kept", "C75_race_refuted", "C75_failed", "C75_failed_handle_fails", "C75_close", "C75_accept"], "note": "Defects: C75_plain_int_fails, C75_file_deleted, C75_twice_fails, C75_race_refuted, C75_failed_handle_fails, and the handle in C75_busy. The kernel's part (connect, bind, listen, unlink, close on one path) is modelled after Linux, in Listen.v; sockets no longer referred to are closed, as CPython does."},
 {"property": "C76", "status": "proved", "theorems": ["C76_ttypes", "C76_constants", "C76_service", "C76_written_alike_lost", "C76_library", "C76_package", "C76_import", "C76_service_import", "C76_service_library", "C76_import_fails", "C76_underscore_fails"], "note": "Defects: C76_import_fails, C76_underscore_fails, C76_written_alike_lost, and the right-hand sides of C76_service, C76_constants, C76_library, C76_package, C76_service_library. What follows the first name of a dotted path is not modelled; a class of an enum is not assumed to lack attributes."},
 {"property": "C77", "status": "proved", "theorems": ["C77_new_object", "C77_assigned", "C77_immutable_lost", "C77_binary_update", "C77_compact_update", "C77_json_update", "C77_binary_copy", "C77_compact_copy", "C77_json_copy", "C77_cut_loses", "C77_fast_unknown", "C77_fast_new_object", "C77_fast_assigned", "C77_fast_whole", "C77_fast_immutable_lost", "C77_fast_binary_update", "C77_fast_compact_update", "C77_fast_binary_copy", "C77_fast_compact_copy"], "note": "Defects: C77_immutable_lost, C77_cut_loses, C77_fast_immutable_lost. Containers annotated python.immutable are not in Into.v."},
 {"property": "C78", "status": "proved", "theorems": ["C78_calls_binary", "C78_calls_compact", "C78_unknown", "C78_plain", "C78_transport_binary", "C78_transport_compact", "C78_args_not_sent_binary", "C78_args_not_sent_compact", "C78_args_ignored_binary", "C78_args_ignored_compact", "C78_failed_binary", "C78_failed_compact", "C78_unnumbered_refuted"], "note": "Defects: C78_args_not_sent_*, C78_args_ignored_*, C78_unnumbered_refuted, C78_failed_*. Transports as in Rpc.v; refilling the decoder's buffer is C67."},
 {"property": "C79", "status": "proved", "theorems": ["C79_safe", "C79_fifo", "C79_stop", "C79_stop_before_lost", "C79_moves", "C79_deadlock_refuted", "C79_deadlock_forever", "C79_spin_starves", "C79_pool", "C79_close_first_lost", "C79_exit_lost", "C79_quiet", "C79_gone", "C79_failed"], "note": "Defects: C79_deadlock_refuted, C79_deadlock_forever, C79_stop_before_lost, C79_spin_starves, C79_close_first_lost, C79_exit_lost. Connections are their status and number of waiting messages; bytes are C24-C27 and C50. select (where there is no poll) is left out."},
 {"property": "C80", "status": "proved", "theorems": ["C80_members", "C80_generated", "C80_ids", "C80_accepted", "C80_schema_ok", "C80_prefix", "C80_neg_keys", "C80_follows", "C80_warned", "C80_cut_fails", "C80_implicit_no_table_lost", "C80_binary_fails", "C80_compact_fails", "C80_accelerated_fails", "C80_accelerated_misnumbers_refuted", "C80_protocols_differ_refuted", "C80_enum", "C80_enum_accepted", "C80_enum_distinct_refuted"], "note": "Defects: C80_cut_fails, C80_implicit_no_table_lost, C80_binary_fails, C80_compact_fails, C80_accelerated_fails, C80_accelerated_misnumbers_refuted, C80_protocols_differ_refuted, C80_enum_distinct_refuted. Types of defaults are C72; a counter below -2^31 wraps in the model (undefined in C++)."},
 {"property": "C81", "status": "proved", "theorems": ["C81_is_open", "C81_ops", "C81_kept", "C81_read", "C81_read_other", "C81_handle_lost", "C81_alone", "C81_answer", "C81_threads", "C81_exclusive", "C81_nonblocking_refuted", "C81_attribute_refuted", "C81_closed_fails", "C81_read_during_refuted"], "note": "Defects: C81_handle_lost, C81_nonblocking_refuted, C81_attribute_refuted, C81_closed_fails, C81_read_during_refuted. A socket call with the lookup of its handle is one step, and so is close; times are whole milliseconds."}
]}
