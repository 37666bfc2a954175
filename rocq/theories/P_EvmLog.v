(** C84 and C85. *)
From Coq Require Import NArith ZArith List Bool.
From stdpp Require Import gmap.
From Verif Require Import Base CodecModel MsgModel EvmLogModel EvmLogSpec EvmLogProofs EvmLogQuery EvmBloomProofs
  EvmLogExamples.
Import ListNotations.
Open Scope N_scope.

(** Two different things an agent stores have different keys, unless two hashes collide. *)
Theorem C84_keys_apart : forall sha p q,
  is_sha sha -> place_ok p -> place_ok q -> key sha p = key sha q ->
  p = q \/ sha_collision sha \/ (p <> q /\ (id_collision sha p \/ id_collision sha q)).
Proof. exact (fun sha p q H => keys_apart sha H p q). Qed.
Print Assumptions C84_keys_apart.
Example C84_keys_apart_ex :
  place_ok (PEvents 7 3) /\ place_ok (PTicket 3) /\ key toy (PEvents 7 3) <> key toy (PTicket 3).
Proof. exact keys_case. Qed.

(** A query over blocks below 2^63 whose requests all succeed is answered once, whatever the
    order of the answers, with exactly the events of the committed transactions that it asks
    for; each as often as it was emitted if no address is asked for twice. *)
Theorem C84_logs_exact_partial : forall sha q h,
  query_ok q = true -> query_sizes q ->
  q_from q < 2 ^ 63 /\ q_to q < 2 ^ 63 /\ (q_to q - q_from q) * len (q_addrs q) < 2 ^ 64 ->
  history_ok h -> no_clash sha h ->
  exists bs, (exists fuel, block_loop fuel (q_from q) (q_to q) = Some bs) /\
  query_keys sha q bs <> [] /\
  forall l, answers_from (commits sha ∅ h) (query_keys sha q bs) l ->
  exists s L, on_answers q (len (query_keys sha q bs)) run0 l = Some s /\
  lr_reports s = [RLogs L] /\
  (forall x, x ∈ shown q L <-> x ∈ matching q h) /\
  (NoDup (q_addrs q) -> shown q L ≡ₚ matching q h).
Proof. exact logs_exact. Qed.
Print Assumptions C84_logs_exact_partial.
Example C84_logs_exact_ex : query_ok q_case = true /\ query_sizes q_case /\
  (q_from q_case < 2 ^ 63 /\ q_to q_case < 2 ^ 63 /\
   (q_to q_case - q_from q_case) * len (q_addrs q_case) < 2 ^ 64) /\
  NoDup (q_addrs q_case) /\ history_ok h_case /\ no_clash toy h_case /\
  matching q_case h_case =
    [((100, [1; 2], [5; 6]), 10, 2 ^ 255 + 7); ((200, [3], [6]), 10, 2 ^ 255 + 7);
     ((100, [8], [6]), 11, 2 ^ 255 + 8)] /\
  length (query_keys toy q_case [10; 11; 12]) = 6%nat.
Proof. exact logs_case. Qed.

(** If requests fail, no events are reported: each failure is reported as a failure. *)
Theorem C84_logs_errors : forall sha q h bs l,
  query_ok q = true -> query_sizes q ->
  q_from q < 2 ^ 63 /\ q_to q < 2 ^ 63 /\ (q_to q - q_from q) * len (q_addrs q) < 2 ^ 64 ->
  history_ok h -> no_clash sha h ->
  (exists fuel, block_loop fuel (q_from q) (q_to q) = Some bs) ->
  answers_or_errors (commits sha ∅ h) (query_keys sha q bs) l -> (0 < errors l)%nat ->
  exists s, on_answers q (len (query_keys sha q bs)) run0 l = Some s /\
  lr_reports s = repeat RFailed (errors l).
Proof. exact logs_error. Qed.
Print Assumptions C84_logs_errors.
Example C84_logs_errors_ex :
  let d := commits toy ∅ h_case in
  let q := Query [100] [6] 10 11 in
  let l := [LError; LValue (held d (log_key toy 100 10))] in
  query_ok q = true /\ query_sizes q /\ small_range q /\
  block_loop 5 10 11 = Some [10; 11] /\
  answers_or_errors d (query_keys toy q [10; 11]) l /\ errors l = 1%nat.
Proof. exact errors_case. Qed.

(** For blocks below 2^63 the checks of the range are the announced ones. *)
Theorem C84_range_partial : forall q, q_from q < 2 ^ 63 -> q_to q < 2 ^ 63 ->
  (q_to q - q_from q) * len (q_addrs q) < 2 ^ 64 ->
  check_range q =
  if q_to q <? q_from q then FromAfterTo
  else if 100 <? (q_to q - q_from q) * len (q_addrs q) then TooLarge else Accepted.
Proof. exact check_range_small. Qed.
Print Assumptions C84_range_partial.
Example C84_range_ex : let q := Query [1; 2] [3] 5 56 in
  q_from q < 2 ^ 63 /\ q_to q < 2 ^ 63 /\ (q_to q - q_from q) * len (q_addrs q) < 2 ^ 64 /\
  check_range q = TooLarge.
Proof. exact range_case. Qed.

(** Refuted: an accepted query is answered. From block 2^64-1 to block 5 no key is asked for,
    so no answer comes and nothing is reported. *)
Theorem C84_answered_refuted : forall sha, exists q,
  query_ok q = true /\ query_sizes q /\
  (forall fuel, block_loop fuel (q_from q) (q_to q) = Some []) /\ query_keys sha q [] = [].
Proof. exact (fun sha => ex_intro _ _ (silent_witness sha)). Qed.
Print Assumptions C84_answered_refuted.

(** Refuted: an accepted query asks for finitely many keys. *)
Theorem C84_finite_refuted : exists q,
  query_ok q = true /\ query_sizes q /\ forall fuel, block_loop fuel (q_from q) (q_to q) = None.
Proof. exact (ex_intro _ _ endless_witness). Qed.
Print Assumptions C84_finite_refuted.

(** Refuted: an accepted query covers at most 100 blocks and addresses. *)
Theorem C84_limit_refuted : exists q,
  query_ok q = true /\ query_sizes q /\ 2 ^ 62 * 4 <= (q_to q - q_from q) * len (q_addrs q).
Proof. exact (ex_intro _ _ limit_witness). Qed.
Print Assumptions C84_limit_refuted.

(** Refuted: the check of the range is defined for all block numbers. *)
Theorem C84_defined_refuted : exists q, query_sizes q /\ check_range q = RangeUndefined.
Proof. exact (ex_intro _ _ undefined_witness). Qed.
Print Assumptions C84_defined_refuted.

(** Refuted: a query is answered once. Two failing requests give two reports. *)
Theorem C84_once_refuted : exists q l,
  query_ok q = true /\ block_loop 5 (q_from q) (q_to q) = Some [10; 11] /\
  answers_or_errors ∅ (query_keys toy q [10; 11]) l /\
  exists s, on_answers q 2 run0 l = Some s /\ lr_reports s = [RFailed; RFailed].
Proof. exact (ex_intro _ _ (ex_intro _ _ twice_witness)). Qed.
Print Assumptions C84_once_refuted.

(** Refuted: an event is shown as often as it was emitted. An address asked for twice gives
    its events twice. *)
Theorem C84_repeated_refuted : exists q h x,
  query_ok q = true /\ query_sizes q /\ history_ok h /\ no_clash toy h /\
  matching q h = [x] /\
  exists s L, on_answers q 2 run0 (map (fun k => LValue (held (commits toy ∅ h) k)) (query_keys toy q [11])) = Some s /\
    lr_reports s = [RLogs L] /\ shown q L = [x; x].
Proof. exact (ex_intro _ _ (ex_intro _ _ (ex_intro _ _ repeated_witness))). Qed.
Print Assumptions C84_repeated_refuted.

(** A bit of a receipt's filter is set exactly if an address or topic of one of its events
    sets it. *)
Theorem C85_filter_exact : forall keccak ls n, is_keccak keccak -> n < 2048 ->
  bloom_bit (receipt_bloom keccak ls) n = true <->
  exists e entry i, e ∈ ls /\ entry_of e entry /\ i ∈ [0; 2; 4]%nat /\ pair_le (keccak entry) i = n.
Proof. exact (fun keccak ls n H => receipt_exact keccak H ls n). Qed.
Print Assumptions C85_filter_exact.
Example C85_filter_ex : let ls := [(100, [1], [5; 6])] in
  is_keccak toy_keccak /\ entry_of (100, [1], [5; 6]) (be_bytes 32 6) /\
  bloom_bit (receipt_bloom toy_keccak ls) 709 = true /\ pair_le (toy_keccak (be_bytes 32 6)) 0 = 709 /\
  bloom_bit (receipt_bloom toy_keccak ls) 710 = false /\
  bloom_bit (block_bloom toy_keccak [[]; ls]) 709 = true.
Proof. exact bloom_case. Qed.

(** A receipt's filter has 256 bytes. *)
Theorem C85_filter_size : forall keccak ls, is_keccak keccak ->
  length (receipt_bloom keccak ls) = 256%nat /\ Forall is_byte (receipt_bloom keccak ls).
Proof. exact (fun keccak ls H => receipt_size keccak H ls). Qed.
Print Assumptions C85_filter_size.

(** A filter denies no address or topic of its events, to a reader that takes the pairs of
    bytes as the code does. *)
Theorem C85_no_miss_partial : forall keccak ls e entry, is_keccak keccak ->
  e ∈ ls -> entry_of e entry -> says pair_le keccak (receipt_bloom keccak ls) entry.
Proof. exact (fun keccak ls e entry H => receipt_says keccak H ls e entry). Qed.
Print Assumptions C85_no_miss_partial.

(** A block's filter has exactly the bits of its receipts' filters. *)
Theorem C85_block : forall keccak txs n, is_keccak keccak -> n < 2048 ->
  bloom_bit (block_bloom keccak txs) n = true <->
  exists ls, ls ∈ txs /\ bloom_bit (receipt_bloom keccak ls) n = true.
Proof. exact (fun keccak txs n H => block_exact keccak H txs n). Qed.
Print Assumptions C85_block.

(** Refuted: a reader that takes the pairs as Ethereum does is not denied an address of the
    filter's events. *)
Theorem C85_standard_refuted : exists keccak e entry, is_keccak keccak /\ entry_of e entry /\
  bloom_bit (receipt_bloom keccak [e]) (pair_be (keccak entry) 0) = false.
Proof. exact (ex_intro _ _ (ex_intro _ _ (ex_intro _ _ standard_witness))). Qed.
Print Assumptions C85_standard_refuted.
