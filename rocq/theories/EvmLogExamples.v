(** Cases and witnesses for C84 and C85. *)
From Coq Require Import NArith ZArith List Bool Lia.
From stdpp Require Import gmap.
From Verif Require Import Base CodecModel CodecProofs MsgModel EvmLogModel EvmLogSpec EvmLogProofs EvmLogQuery
  EvmBloomProofs.
Import ListNotations.
Open Scope N_scope.

(** A function without collisions on the inputs that are hashed. *)
Definition toy (x : bytes) : N :=
  (2 * le_value x + (if (length x =? 8)%nat then 0 else 1)) mod 2 ^ 256.

Lemma toy_small x : hashed x -> toy x = 2 * le_value x + (if (length x =? 8)%nat then 0 else 1) /\ le_value x < 2 ^ 224.
Proof.
  intros [L F]. assert (B : le_value x < 2 ^ 224).
  { pose proof (le_value_bound x F) as B. eapply N.lt_le_trans; [exact B|].
    destruct L as [-> | ->]; vm_compute; discriminate. }
  split; [|exact B]. unfold toy. apply N.mod_small.
  change (2 ^ 256) with (2 ^ 224 * 4294967296). change (2 ^ 224) with 26959946667150639794667015087019630673637144422540572481103610249216 in *.
  destruct (length x =? 8)%nat; lia.
Qed.

Lemma toy_inj : ~ sha_collision toy.
Proof.
  intros (x & y & X & Y & Ne & E). destruct (toy_small x X) as [Ex _], (toy_small y Y) as [Ey _].
  rewrite Ex, Ey in E. destruct X as [Lx Fx], Y as [Ly Fy].
  assert (L : length x = length y /\ le_value x = le_value y).
  { destruct Lx as [Lx|Lx], Ly as [Ly|Ly]; rewrite Lx, Ly in *; cbn in E; split; lia. }
  destruct L as [L V]. apply Ne.
  rewrite <- (le_bytes_value x Fx), <- (le_bytes_value y Fy). now rewrite L, V.
Qed.

Lemma toy_range : is_sha toy.
Proof. intros b. apply N.mod_lt. discriminate. Qed.

(** Two transactions: block 10 with events of two addresses, block 11 with one event; and a
    receipt and an account among the other updates. *)
Notation h_case :=
  [Committed 10 (2 ^ 255 + 7) [(100, [1; 2], [5; 6]); (200, [3], [6]); (100, [], [7])]
             [(PAccount 100, [1]); (PTicket 10, [9]); (PReceipt (2 ^ 255 + 7), [4])];
   Committed 11 (2 ^ 255 + 8) [(100, [8], [6])] [(PReceipt (2 ^ 255 + 8), [4])]].
Notation q_case := (Query [100; 200] [6; 9] 10 12).

Lemma not_toy i : 2 ^ 255 <= i -> ~ id_collision toy (PReceipt i).
Proof.
  intros L (x & X & E). destruct (toy_small x X) as [Ex B]. rewrite <- E, Ex in L.
  change (2 ^ 255) with (2 ^ 224 * 2147483648) in L.
  change (2 ^ 224) with 26959946667150639794667015087019630673637144422540572481103610249216 in *.
  destruct (length x =? 8)%nat; lia.
Qed.

Lemma ev_case a d ts : a < 2 ^ 160 -> len d < 2 ^ 64 -> Forall is_byte d -> len ts < 2 ^ 64 ->
  Forall (fun t => t < 2 ^ 256) ts -> event_ok (a, d, ts).
Proof. intros. repeat split; assumption. Qed.

Lemma case_history : history_ok h_case.
Proof.
  split.
  - repeat constructor; cbn [c_ticket c_txid c_events c_other fst]; try reflexivity; try exact I.
  - cbn [map c_ticket]. apply NoDup_cons. split; [intros H; apply elem_of_list_singleton in H; discriminate|].
    apply NoDup_singleton.
Qed.

Lemma case_no_clash : no_clash toy h_case.
Proof.
  split; [exact toy_range|]. split; [exact toy_inj|].
  apply Forall_forall. intros c C. apply Forall_forall. intros u U.
  apply elem_of_cons in C as [->|C]; [|apply elem_of_list_singleton in C; subst c]; cbn [c_other] in U.
  - apply elem_of_cons in U as [->|U]; [now intros []|]. apply elem_of_cons in U as [->|U]; [now intros []|].
    apply elem_of_list_singleton in U. subst u. apply not_toy. vm_compute. discriminate.
  - apply elem_of_list_singleton in U. subst u. apply not_toy. vm_compute. discriminate.
Qed.

Lemma logs_case : query_ok q_case = true /\ query_sizes q_case /\ small_range q_case /\
  NoDup (q_addrs q_case) /\ history_ok h_case /\ no_clash toy h_case /\
  matching q_case h_case =
    [((100, [1; 2], [5; 6]), 10, 2 ^ 255 + 7); ((200, [3], [6]), 10, 2 ^ 255 + 7);
     ((100, [8], [6]), 11, 2 ^ 255 + 8)] /\
  length (query_keys toy q_case [10; 11; 12]) = 6%nat.
Proof.
  split; [reflexivity|]. split; [repeat split; try reflexivity; repeat constructor|].
  split; [repeat split; reflexivity|]. split; [|split; [exact case_history|split; [exact case_no_clash|split; reflexivity]]].
  apply NoDup_cons. split; [intros H; apply elem_of_list_singleton in H; discriminate|]. apply NoDup_singleton.
Qed.

(** Keys of different places. *)
Lemma keys_case : place_ok (PEvents 7 3) /\ place_ok (PTicket 3) /\ key toy (PEvents 7 3) <> key toy (PTicket 3).
Proof. split; [split; reflexivity|]. split; [reflexivity|]. vm_compute. discriminate. Qed.

(** One of the two requests fails. *)
Lemma errors_case :
  let d := commits toy ∅ h_case in
  let q := Query [100] [6] 10 11 in
  let l := [LError; LValue (held d (log_key toy 100 10))] in
  query_ok q = true /\ query_sizes q /\ small_range q /\
  block_loop 5 10 11 = Some [10; 11] /\
  answers_or_errors d (query_keys toy q [10; 11]) l /\ errors l = 1%nat.
Proof.
  intros d q l. split; [reflexivity|]. split; [repeat split; try reflexivity; repeat constructor|].
  split; [repeat split; reflexivity|]. split; [reflexivity|]. split; [|reflexivity].
  exists [LValue (held d (log_key toy 100 10)); LError]. split; [apply perm_swap|].
  constructor; [now right|]. constructor; [now left|]. constructor.
Qed.

Lemma range_case : let q := Query [1; 2] [3] 5 56 in
  q_from q < 2 ^ 63 /\ q_to q < 2 ^ 63 /\ (q_to q - q_from q) * len (q_addrs q) < 2 ^ 64 /\
  check_range q = TooLarge.
Proof. now vm_compute. Qed.

(** ** Witnesses *)

Lemma silent_witness sha : let q := Query [100] [6] (2 ^ 64 - 1) 5 in
  query_ok q = true /\ query_sizes q /\
  (forall fuel, block_loop fuel (q_from q) (q_to q) = Some []) /\ query_keys sha q [] = [].
Proof.
  split; [reflexivity|]. split; [repeat split; try reflexivity; repeat constructor|].
  split; [|reflexivity]. now intros [|fuel].
Qed.

Lemma endless_witness : let q := Query [100] [6] (2 ^ 64 - 1) (2 ^ 64 - 1) in
  query_ok q = true /\ query_sizes q /\ forall fuel, block_loop fuel (q_from q) (q_to q) = None.
Proof.
  split; [reflexivity|]. split; [repeat split; try reflexivity; repeat constructor|]. exact loop_wraps.
Qed.

Lemma limit_witness : let q := Query [1; 2; 3; 4] [6] 0 (2 ^ 62) in
  query_ok q = true /\ query_sizes q /\ 2 ^ 62 * 4 <= (q_to q - q_from q) * len (q_addrs q).
Proof.
  split; [reflexivity|]. split; [repeat split; try reflexivity; repeat constructor|]. vm_compute. discriminate.
Qed.

Lemma undefined_witness : let q := Query [1] [6] (2 ^ 63) (2 ^ 63 - 1) in
  query_sizes q /\ check_range q = RangeUndefined.
Proof. split; [repeat split; try reflexivity; repeat constructor|]. reflexivity. Qed.

Lemma twice_witness : let q := Query [100] [6] 10 11 in
  query_ok q = true /\ block_loop 5 10 11 = Some [10; 11] /\
  answers_or_errors ∅ (query_keys toy q [10; 11]) [LError; LError] /\
  exists s, on_answers q 2 run0 [LError; LError] = Some s /\ lr_reports s = [RFailed; RFailed].
Proof.
  split; [reflexivity|]. split; [reflexivity|]. split.
  - exists [LError; LError]. split; [reflexivity|]. constructor; [now left|]. constructor; [now left|]. constructor.
  - eexists. split; reflexivity.
Qed.

Lemma repeated_witness :
  let q := Query [100; 100] [6] 11 11 in
  let h := [Committed 11 (2 ^ 255 + 8) [(100, [8], [6])] []] in
  query_ok q = true /\ query_sizes q /\ history_ok h /\ no_clash toy h /\
  matching q h = [((100, [8], [6]), 11, 2 ^ 255 + 8)] /\
  exists s L, on_answers q 2 run0 (map (fun k => LValue (held (commits toy ∅ h) k)) (query_keys toy q [11])) = Some s /\
    lr_reports s = [RLogs L] /\
    shown q L = [((100, [8], [6]), 11, 2 ^ 255 + 8); ((100, [8], [6]), 11, 2 ^ 255 + 8)].
Proof.
  intros q h. split; [reflexivity|]. split; [repeat split; try reflexivity; repeat constructor|].
  split; [split; [|cbn; apply NoDup_singleton]; repeat constructor; try reflexivity|].
  split; [split; [exact toy_range|split; [exact toy_inj|repeat constructor]]|].
  split; [reflexivity|].
  eexists (LRun _ 2 [RLogs _]), _. split; [vm_compute; reflexivity|]. split; [reflexivity|]. vm_compute. reflexivity.
Qed.

(** ** Bloom filters *)

(** The hash of the empty string; a function that gives it to every input. *)
Definition keccak_empty : bytes :=
  [197; 210; 70; 1; 134; 247; 35; 60; 146; 126; 125; 178; 220; 199; 3; 192;
   229; 0; 182; 83; 202; 130; 39; 59; 123; 250; 216; 4; 93; 133; 164; 112].
Definition toy_keccak (_ : bytes) : bytes := keccak_empty.

Lemma toy_keccak_ok : is_keccak toy_keccak.
Proof.
  intros b. split; [reflexivity|]. unfold toy_keccak, keccak_empty. repeat constructor.
Qed.

Lemma bloom_case : let ls := [(100, [1], [5; 6])] in
  is_keccak toy_keccak /\ entry_of (100, [1], [5; 6]) (be_bytes 32 6) /\
  bloom_bit (receipt_bloom toy_keccak ls) 709 = true /\ pair_le (toy_keccak (be_bytes 32 6)) 0 = 709 /\
  bloom_bit (receipt_bloom toy_keccak ls) 710 = false /\
  bloom_bit (block_bloom toy_keccak [[]; ls]) 709 = true.
Proof.
  split; [exact toy_keccak_ok|]. split.
  - right. exists 6. split; [|reflexivity]. apply elem_of_cons. right. now apply elem_of_list_singleton.
  - repeat split; vm_compute; reflexivity.
Qed.

Lemma standard_witness : let e := (100, [1], [5; 6]) in
  is_keccak toy_keccak /\ entry_of e (be_bytes 20 100) /\
  bloom_bit (receipt_bloom toy_keccak [e]) (pair_be (toy_keccak (be_bytes 20 100)) 0) = false.
Proof. split; [exact toy_keccak_ok|]. split; [now left|]. vm_compute. reflexivity. Qed.
