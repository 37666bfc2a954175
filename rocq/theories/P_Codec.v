(** C08-C11: the wire format. [wire_correct] (CodecSpec.v) says: decoding inverts
    encoding with any trailing bytes (C08), the announced size is exact (C09), the
    encoding is prefix-free and injective (C10), truncated messages are detected
    and a read of arbitrary bytes terminates and consumes a prefix (C11). *)
From Coq Require Import NArith List.
From stdpp Require Import base decidable list.
From Verif Require Import Base CodecModel CodecSpec CodecProofs TxModel MsgModel MsgProofs WireProofs CodecMore.
Import ListNotations.
Open Scope N_scope.

(** Building blocks: any type assembled from them is covered. *)
Theorem C08_integers n : wire_correct (c_uint n).
Proof. exact (wire_of_lawful _ (lawful_uint n)). Qed.
Print Assumptions C08_integers.
Theorem C08_arrays n : wire_correct (c_array n).
Proof. exact (wire_of_lawful _ (lawful_array n)). Qed.
Print Assumptions C08_arrays.
Theorem C08_bool : wire_correct c_bool.
Proof. exact (wire_of_lawful _ lawful_bool). Qed.
Print Assumptions C08_bool.
Theorem C08_buffer : wire_correct c_buffer.
Proof. exact (wire_of_lawful _ lawful_buffer). Qed.
Print Assumptions C08_buffer.
Theorem C08_option {A} (c : codec A) : lawful c -> wire_correct (c_option c).
Proof. exact (fun L => wire_of_lawful _ (lawful_option c L)). Qed.
Print Assumptions C08_option.
(** An optional value that was cut off is not there. *)
Theorem C11_option_cut {A} (c : codec A) s o s' :
  dec (c_option c) s = Ok o s' -> valid s' = false -> o = None.
Proof. exact (option_failed c s o s'). Qed.
Print Assumptions C11_option_cut.
Theorem C08_pair {A B} (c : codec A) (d : codec B) :
  lawful c -> lawful d -> wire_correct (c_pair c d).
Proof. exact (fun L M => wire_of_lawful _ (lawful_pair c d L M)). Qed.
Print Assumptions C08_pair.
Theorem C08_vector {A} (c : codec A) : lawful c -> wire_correct (c_vec c).
Proof. exact (fun L => wire_of_lawful _ (lawful_vec c L)). Qed.
Print Assumptions C08_vector.
Theorem C08_set {K} `{EqDecision K} (c : codec K) : lawful c -> wire_correct (c_oset c).
Proof. exact (fun L => wire_of_lawful _ (lawful_oset c L)). Qed.
Print Assumptions C08_set.
Theorem C08_unordered_set {K} `{EqDecision K} (c : codec K) :
  lawful c -> consuming c -> wire_correct (c_uset c).
Proof. exact (fun L C => wire_of_lawful _ (lawful_uset c L C)). Qed.
Print Assumptions C08_unordered_set.
Theorem C08_unordered_map {K V} `{EqDecision K} (c : codec K) (d : codec V) :
  lawful c -> lawful d -> consuming c -> wire_correct (c_map c d).
Proof. exact (fun L M C => wire_of_lawful _ (lawful_map c d L M C)). Qed.
Print Assumptions C08_unordered_map.
Theorem C08_rpc_request {A} (c : codec A) : lawful c -> wire_correct (c_rpc_request c).
Proof. exact (fun L => wire_of_lawful _ (lawful_pair _ c lawful_u64 L)). Qed.
Print Assumptions C08_rpc_request.
Theorem C08_rpc_response {A} (c : codec A) : lawful c -> wire_correct (c_rpc_response c).
Proof. exact (fun L => wire_of_lawful _ (lawful_pair _ _ lawful_u64 (lawful_option c L))). Qed.
Print Assumptions C08_rpc_response.

(** Every message type. *)
Theorem C08_full_tx : wire_correct c_full_tx.
Proof. exact wire_full_tx. Qed.
Print Assumptions C08_full_tx.
Theorem C08_compact_tx : wire_correct c_compact_tx.
Proof. exact wire_compact_tx. Qed.
Print Assumptions C08_compact_tx.
Theorem C08_out_point : wire_correct c_out_point.
Proof. exact wire_out_point. Qed.
Print Assumptions C08_out_point.
Theorem C08_output : wire_correct c_output.
Proof. exact wire_output. Qed.
Print Assumptions C08_output.
Theorem C08_input : wire_correct c_input.
Proof. exact wire_input. Qed.
Print Assumptions C08_input.
Theorem C08_tx_error : wire_correct c_tx_error.
Proof. exact wire_tx_error. Qed.
Print Assumptions C08_tx_error.
Theorem C08_execute_response : wire_correct c_execute_response.
Proof. exact wire_execute_response. Qed.
Print Assumptions C08_execute_response.
Theorem C08_sentinel_request : wire_correct c_sentinel_request.
Proof. exact wire_sentinel_request. Qed.
Print Assumptions C08_sentinel_request.
Theorem C08_sentinel_response : wire_correct c_sentinel_response.
Proof. exact wire_sentinel_response. Qed.
Print Assumptions C08_sentinel_response.
Theorem C08_wt_error : wire_correct c_wt_error.
Proof. exact wire_wt_error. Qed.
Print Assumptions C08_wt_error.
Theorem C08_status_update_request : wire_correct c_status_update_request.
Proof. exact wire_status_update_request. Qed.
Print Assumptions C08_status_update_request.
Theorem C08_status_check_success : wire_correct c_status_check_success.
Proof. exact wire_status_check_success. Qed.
Print Assumptions C08_status_check_success.
Theorem C08_watchtower_request : wire_correct c_watchtower_request.
Proof. exact wire_watchtower_request. Qed.
Print Assumptions C08_watchtower_request.
Theorem C08_watchtower_response : wire_correct c_watchtower_response.
Proof. exact wire_watchtower_response. Qed.
Print Assumptions C08_watchtower_response.
Theorem C08_block : wire_correct c_block.
Proof. exact wire_block. Qed.
Print Assumptions C08_block.
Theorem C08_tx_notify_request : wire_correct c_tx_notify_request.
Proof. exact wire_tx_notify_request. Qed.
Print Assumptions C08_tx_notify_request.
Theorem C08_agg_tx : wire_correct c_agg_tx.
Proof. exact wire_agg_tx. Qed.
Print Assumptions C08_agg_tx.
Theorem C08_agg_request : wire_correct c_agg_request.
Proof. exact wire_agg_request. Qed.
Print Assumptions C08_agg_request.
Theorem C08_make_block_response : wire_correct c_make_block_response.
Proof. exact wire_make_block_response. Qed.
Print Assumptions C08_make_block_response.
Theorem C08_atomizer_request : wire_correct c_atomizer_request.
Proof. exact wire_atomizer_request. Qed.
Print Assumptions C08_atomizer_request.
Theorem C08_atomizer_sm_request : wire_correct c_atomizer_sm_request.
Proof. exact wire_atomizer_sm_request. Qed.
Print Assumptions C08_atomizer_sm_request.
Theorem C08_atomizer_sm_response : wire_correct c_atomizer_sm_response.
Proof. exact wire_atomizer_sm_response. Qed.
Print Assumptions C08_atomizer_sm_response.
Theorem C08_ls_request : wire_correct c_ls_request.
Proof. exact wire_ls_request. Qed.
Print Assumptions C08_ls_request.
Theorem C08_ls_response : wire_correct c_ls_response.
Proof. exact wire_ls_response. Qed.
Print Assumptions C08_ls_response.
Theorem C08_ls_status_request : wire_correct c_ls_status_request.
Proof. exact wire_ls_status_request. Qed.
Print Assumptions C08_ls_status_request.
Theorem C08_sm_header : wire_correct c_sm_header.
Proof. exact wire_sm_header. Qed.
Print Assumptions C08_sm_header.
Theorem C08_prepare_tx : wire_correct c_prepare_tx.
Proof. exact wire_prepare_tx. Qed.
Print Assumptions C08_prepare_tx.
Theorem C08_commit_tx : wire_correct c_commit_tx.
Proof. exact wire_commit_tx. Qed.
Print Assumptions C08_commit_tx.
Theorem C08_coord_state : wire_correct c_coord_state.
Proof. exact wire_coord_state. Qed.
Print Assumptions C08_coord_state.
(** The state machine keeps prepare and commit payloads as raw buffers and writes
    them unchanged; the bytes are those of the decoded state. *)
Theorem C08_coord_state_raw p cm d :
  concat (wr_raw_state (map (fun x => (fst x, enc c_prepare_tx (snd x))) p)
            (map (fun x => (fst x, enc c_commit_tx (snd x))) cm) d)
  = enc c_coord_state (p, cm, d).
Proof. exact (raw_state_ok p cm d). Qed.
Print Assumptions C08_coord_state_raw.
Theorem C08_try_lock : wire_correct c_try_lock.
Proof. exact wire_try_lock. Qed.
Print Assumptions C08_try_lock.
Theorem C08_rls_prepare : wire_correct c_rls_prepare.
Proof. exact wire_rls_prepare. Qed.
Print Assumptions C08_rls_prepare.
Theorem C08_rls_request : wire_correct c_rls_request.
Proof. exact wire_rls_request. Qed.
Print Assumptions C08_rls_request.
Theorem C08_shard_error : wire_correct c_shard_error.
Proof. exact wire_shard_error. Qed.
Print Assumptions C08_shard_error.
Theorem C08_rls_response : wire_correct c_rls_response.
Proof. exact wire_rls_response. Qed.
Print Assumptions C08_rls_response.
Theorem C08_repl_prepare : wire_correct c_repl_prepare.
Proof. exact wire_repl_prepare. Qed.
Print Assumptions C08_repl_prepare.
Theorem C08_repl_request : wire_correct c_repl_request.
Proof. exact wire_repl_request. Qed.
Print Assumptions C08_repl_request.
Theorem C08_repl_ticket : wire_correct c_repl_ticket.
Proof. exact wire_repl_ticket. Qed.
Print Assumptions C08_repl_ticket.
Theorem C08_repl_response : wire_correct c_repl_response.
Proof. exact wire_repl_response. Qed.
Print Assumptions C08_repl_response.
Theorem C08_agent_request : wire_correct c_agent_request.
Proof. exact wire_agent_request. Qed.
Print Assumptions C08_agent_request.
Theorem C08_agent_response : wire_correct c_agent_response.
Proof. exact wire_agent_response. Qed.
Print Assumptions C08_agent_response.
Theorem C08_ticket_request : wire_correct c_ticket_request.
Proof. exact wire_ticket_request. Qed.
Print Assumptions C08_ticket_request.
Theorem C08_ticket_response : wire_correct c_ticket_response.
Proof. exact wire_ticket_response. Qed.
Print Assumptions C08_ticket_response.
Theorem C08_evm_account : wire_correct c_evm_account.
Proof. exact wire_evm_account. Qed.
Print Assumptions C08_evm_account.
Theorem C08_evm_sig : wire_correct c_evm_sig.
Proof. exact wire_evm_sig. Qed.
Print Assumptions C08_evm_sig.
Theorem C08_evm_tx : wire_correct c_evm_tx.
Proof. exact wire_evm_tx. Qed.
Print Assumptions C08_evm_tx.
Theorem C08_evm_dryrun : wire_correct c_evm_dryrun.
Proof. exact wire_evm_dryrun. Qed.
Print Assumptions C08_evm_dryrun.
Theorem C08_evm_log : wire_correct c_evm_log.
Proof. exact wire_evm_log. Qed.
Print Assumptions C08_evm_log.
Theorem C08_evm_receipt : wire_correct c_evm_receipt.
Proof. exact wire_evm_receipt. Qed.
Print Assumptions C08_evm_receipt.
Theorem C08_code_key : wire_correct c_code_key.
Proof. exact wire_code_key. Qed.
Print Assumptions C08_code_key.
Theorem C08_storage_key : wire_correct c_storage_key.
Proof. exact wire_storage_key. Qed.
Print Assumptions C08_storage_key.
Theorem C08_pretend_block : wire_correct c_pretend_block.
Proof. exact wire_pretend_block. Qed.
Print Assumptions C08_pretend_block.
Theorem C08_log_query : wire_correct c_log_query.
Proof. exact wire_log_query. Qed.
Print Assumptions C08_log_query.
Theorem C08_log_index : wire_correct c_log_index.
Proof. exact wire_log_index. Qed.
Print Assumptions C08_log_index.

(** The hypothesis [dom c a] (fields within their C++ types) is met by ordinary
    values, and the round trip holds on them by computation. *)
Example C08_example_dom : dom c_full_tx ex_tx.
Proof. exact ex_tx_dom. Qed.
Example C08_example_dom2 : dom c_ls_request ex_ls_request.
Proof. exact ex_ls_request_dom. Qed.
Example C08_example : dec c_full_tx (Dst (encoding c_full_tx ex_tx ++ [1; 2; 3]) true)
  = Ok ex_tx (Dst [1; 2; 3] true).
Proof. vm_compute. reflexivity. Qed.
Example C08_example_lawful : lawful c_compact_tx /\ consuming c_hash.
Proof. exact (conj lawful_compact_tx consuming_hash). Qed.

(** C09 for the other serializers: a NuRaft buffer allocated from the announced
    size, whatever its previous contents, is filled exactly by exactly the same
    bytes; an output stream receives the same bytes. *)
Theorem C09_nuraft_buffer_filled junk (w : writes) : (forall n, len (junk n) = n) ->
  make_nuraft_buffer junk w = NuSer (make_buffer w) (serialized_size w) true /\
  serialized_size w = len (make_buffer w).
Proof. exact (nuraft_filled junk w). Qed.
Print Assumptions C09_nuraft_buffer_filled.
Theorem C09_stream_same_bytes (w : writes) file :
  fold_left ostream_write w file = file ++ make_buffer w.
Proof. exact (stream_same w file). Qed.
Print Assumptions C09_stream_same_bytes.
(** C09: a buffer that was not sized beforehand grows to hold exactly the same bytes after
    what it held; a NuRaft buffer that is too small is reported, not silently cut. *)
Theorem C09_unsized_buffer (w : writes) pre :
  fold_left bufser_write w (BufSer pre (len pre))
  = BufSer (pre ++ make_buffer w) (len (pre ++ make_buffer w)).
Proof. exact (unsized_same w pre). Qed.
Print Assumptions C09_unsized_buffer.
Theorem C09_nuraft_too_small (w : writes) b : len b < len (make_buffer w) ->
  nu_valid (fold_left nuser_write w (NuSer b 0 true)) = false.
Proof. exact (nuraft_too_small w b). Qed.
Print Assumptions C09_nuraft_too_small.
Example C09_too_small_example : len [0; 0] < len (make_buffer [[1; 2]; [3]]).
Proof. vm_compute. reflexivity. Qed.
Example C09_example : exists junk : N -> bytes, forall n, len (junk n) = n.
Proof. exact junk_exists. Qed.

(** C11: the primitive read of a buffer. *)
Theorem C11_read_exact pkt cursor n :
  cursor <= len pkt -> len pkt <= max_alloc -> n <= max_alloc ->
  buf_read pkt cursor n <> RdOob /\
  ((exists d c, buf_read pkt cursor n = RdOk d c) <-> n <= len pkt - cursor) /\
  (forall d c, buf_read pkt cursor n = RdOk d c ->
     len d = n /\ c = cursor + n /\
     exists pre post, pkt = pre ++ d ++ post /\ len pre = cursor).
Proof. exact (buf_read_exact pkt cursor n). Qed.
Print Assumptions C11_read_exact.
Example C11_example : buf_read [1; 2; 3] 1 2 = RdOk [2; 3] 3 /\ buf_read [1; 2; 3] 2 2 = RdFail.
Proof. split; vm_compute; reflexivity. Qed.

(** The primitive read and the decoders' [rd] agree (so the theorems above about
    [dec] are theorems about [buf_read]). *)
Theorem C11_decoders_use_it pkt cursor n v :
  cursor <= len pkt -> len pkt <= max_alloc -> n <= max_alloc ->
  match rd n (Dst (skipn (N.to_nat cursor) pkt) v) with
  | (Some b, s) => buf_read pkt cursor n = RdOk b (cursor + n) /\
                   rem s = skipn (N.to_nat (cursor + n)) pkt /\ valid s = v
  | (None, s) => buf_read pkt cursor n = RdFail /\ valid s = false
  end.
Proof. exact (buf_read_rd pkt cursor n v). Qed.
Print Assumptions C11_decoders_use_it.

(** A failed read is remembered: nothing read later makes the reader valid. *)
Theorem C11_failure_is_sticky {A} (c : codec A) : lawful c ->
  forall b a s, dec c (Dst b false) = Ok a s -> valid s = false.
Proof. exact (l_sticky c). Qed.
Print Assumptions C11_failure_is_sticky.

(** Without the bound on the length the claim is false: the 64-bit sum wraps. *)
Theorem C11_read_exact_refuted : exists pkt cursor n,
  cursor <= len pkt /\ n < 2 ^ 64 /\ buf_read pkt cursor n = RdOob.
Proof. exact buf_read_wraps. Qed.
Print Assumptions C11_read_exact_refuted.

(** A truncated message can make the reader throw instead of reporting failure:
    the second of two buffers is read even though the first one failed, from
    bytes that are not a length. *)
Theorem C11_truncation_reported_refuted : exists (a : bytes * bytes) p q,
  dom (c_pair c_buffer c_buffer) a /\ q <> [] /\
  encoding (c_pair c_buffer c_buffer) a = p ++ q /\
  from_buffer (c_pair c_buffer c_buffer) p = Throw.
Proof. exact truncation_throws. Qed.
Print Assumptions C11_truncation_reported_refuted.

