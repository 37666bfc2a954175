(** Concrete sentinels. *)
From Coq Require Import NArith List Bool Lia Arith.
From stdpp Require Import base decidable list.
From Verif Require Import Base CodecModel TxModel TxSpec TxExamples ValidationModel ValidationSpec ValidationProofs
  WalletModel WalletSpec WalletExamples ClientExamples SentinelModel SentinelSpec SentinelProofs.
Import ListNotations.
Open Scope N_scope.

Lemma quick_fits : sha_fits quick_sha.
Proof.
  intros b. unfold quick_sha. rewrite <- fold_left_rev_right. destruct (rev b) as [|x r]; [vm_compute; reflexivity|].
  cbn [fold_right]. change (2 ^ 64 - 1) with (N.ones 64). rewrite N.land_ones. eapply N.lt_trans; [apply N.mod_lt; discriminate|reflexivity].
Qed.
(** A transaction that spends two coins, and three sentinels that want two attestations. *)
Definition pay_tx : full_tx := tx_life3.
Definition sen1 : sentinel := Sentinel (Some 1001) 2 2.
Definition sen2 : sentinel := Sentinel (Some 1002) 2 2.
Definition sen3 : sentinel := Sentinel (Some 1003) 2 2.
Definition all_parse (pk : N) : bool := true.
Definition toy_validate := validate_transaction quick_sha all_parse toy_schnorr toy_pub toy_ssign.
Definition ask_peers (tx : full_tx) (n k : nat) : option (option (N * N)) :=
  match nth_error [sen2; sen3] k with
  | None => None
  | Some o => match toy_validate o tx with VAttest a => Some (Some a) | _ => Some None end
  end.
Definition alternate (n : nat) : nat := Nat.modulo n 2.

Lemma pay_typed : typed_tx pay_tx.
Proof. split; repeat constructor. Qed.
Lemma pay_typed_full : typed_full_tx pay_tx.
Proof. apply tx_b_ok. vm_compute. reflexivity. Qed.
Lemma pay_accepted : check_tx quick_sha all_parse toy_schnorr pay_tx = Accepted.
Proof. vm_compute. reflexivity. Qed.
Lemma pay_valid : valid_tx quick_sha all_parse toy_schnorr pay_tx.
Proof. apply check_tx_accepts; [exact pay_typed|exact pay_accepted]. Qed.
Lemma toy_keys_work : keys_work all_parse toy_schnorr toy_pub toy_ssign.
Proof. intros sk m. destruct (toy_keys_sound sk m) as (_ & _ & A & B). auto. Qed.
Lemma ask_honest tx : peers_honest quick_sha all_parse toy_schnorr toy_pub toy_ssign [sen2; sen3] tx (ask_peers tx).
Proof.
  intros n k a. unfold ask_peers. destruct (nth_error [sen2; sen3] k) as [o|]; [|discriminate].
  destruct (toy_validate o tx) as [a'| |] eqn:V; try discriminate. intros H. injection H as <-. exists o. auto.
Qed.
Lemma alternate_fair : fair 2 alternate /\ in_bounds 2 alternate.
Proof.
  split.
  - intros n k Hk. exists (2 * n + k)%nat. split; [lia|]. unfold alternate. rewrite Nat.add_comm, Nat.mul_comm, Nat.mod_add by lia.
    apply Nat.mod_small. exact Hk.
  - intros n. unfold alternate. apply Nat.mod_upper_bound. lia.
Qed.
Lemma ask_answers : peers_answer 2 (ask_peers pay_tx) [toy_pub 1001].
Proof.
  exists (fun k => if (k =? 0)%nat then toy_pub 1002 else toy_pub 1003). split; [|split].
  - intros n k Hk. assert (E : k = 0%nat \/ k = 1%nat) by lia. unfold ask_peers, toy_validate, validate_transaction.
    rewrite pay_accepted. destruct E as [-> | ->]; cbn [nth_error Nat.eqb sen2 sen3 attest se_key]; eauto.
  - intros j k Hj Hk. assert (E : j = 0%nat \/ j = 1%nat) by lia. assert (F : k = 0%nat \/ k = 1%nat) by lia.
    destruct E as [-> | ->], F as [-> | ->]; cbn [Nat.eqb]; intros Q; try reflexivity; vm_compute in Q; discriminate.
  - intros k Hk [Q|[]]. destruct (k =? 0)%nat; vm_compute in Q; discriminate.
Qed.
(** A run: the transaction is submitted with two attestations and confirmed. *)
Definition submitted_ok (x : executed) : bool :=
  match x with
  | XDone (Some t) (Some r) =>
      match rs_status r with StConfirmed => true | _ => false end && (len (ctx_atts t) =? 2) &&
      check_attestations quick_sha all_parse toy_schnorr t [toy_pub 1001; toy_pub 1002; toy_pub 1003] 2
  | _ => false
  end.
Lemma pay_runs : submitted_ok (execute_2pc quick_sha all_parse toy_schnorr toy_pub toy_ssign 5 alternate (ask_peers pay_tx)
                                 (fun _ => Some true) sen1 pay_tx) = true.
Proof. vm_compute. reflexivity. Qed.

(** The sentinel of the atomizer says "pending" although a peer has refused. *)
Definition refuses (n k : nat) : option (option (N * N)) := Some None.
Lemma pending_case : exists s tx fuel draws ask, typed_tx tx /\ valid_tx quick_sha all_parse toy_schnorr tx /\
  init_atomizer s = true /\
  execute_atomizer quick_sha all_parse toy_schnorr toy_pub toy_ssign fuel draws ask s tx =
    (FNothing, Some (Response StPending None)).
Proof.
  exists sen1, pay_tx, 3%nat, alternate, refuses. split; [exact pay_typed|]. split; [exact pay_valid|]. split; [reflexivity|].
  vm_compute. reflexivity.
Qed.
(** A peer that answers with a signature that does not verify: it is not checked, and the
    shards will refuse the transaction. *)
Definition lies (n k : nat) : option (option (N * N)) := Some (Some (1002, 7)).
Lemma lying_case : exists s tx fuel draws ask t,
  typed_tx tx /\ valid_tx quick_sha all_parse toy_schnorr tx /\
  execute_2pc quick_sha all_parse toy_schnorr toy_pub toy_ssign fuel draws ask (fun _ => Some false) s tx =
    XDone (Some t) (Some (Response StStateInvalid None)) /\
  check_attestations quick_sha all_parse toy_schnorr t [toy_pub 1001; toy_pub 1002; toy_pub 1003] (se_threshold s) = false.
Proof.
  set (x := execute_2pc quick_sha all_parse toy_schnorr toy_pub toy_ssign 5 alternate lies (fun _ => Some false) sen1 pay_tx).
  assert (G : match x with
    | XDone (Some t) (Some (Response StStateInvalid None)) =>
        negb (check_attestations quick_sha all_parse toy_schnorr t [toy_pub 1001; toy_pub 1002; toy_pub 1003] 2)
    | _ => false end = true) by (vm_compute; reflexivity).
  destruct x as [[t|] [[[] []]|]| |] eqn:X; try discriminate G. apply negb_true_iff in G.
  exists sen1, pay_tx, 5%nat, alternate, lies, t. split; [exact pay_typed|]. split; [exact pay_valid|]. split; [exact X|exact G].
Qed.

(** Keys that sign only the transaction above. *)
Definition strict_schnorr (pk : N) (h : hash) (sg : N) : bool :=
  toy_schnorr pk h sg && ((pk <? 1000) || (h =? ctx_hash quick_sha (to_compact quick_sha pay_tx))).
Lemma strict_accepted : check_tx quick_sha all_parse strict_schnorr pay_tx = Accepted.
Proof. vm_compute. reflexivity. Qed.
Lemma strict_honest pk : 1000 <= pk -> honest_key quick_sha all_parse strict_schnorr pk.
Proof.
  intros P h sg. unfold strict_schnorr. rewrite andb_true_iff, orb_true_iff, N.ltb_lt, N.eqb_eq. intros [_ [Q|Q]]; [lia|].
  exists pay_tx. split; [exact pay_typed_full|]. split; [|exact Q]. apply check_tx_accepts; [exact pay_typed|exact strict_accepted].
Qed.
Definition attested_pay : compact_tx :=
  CompactTx (ctx_id (to_compact quick_sha pay_tx)) (ctx_inputs (to_compact quick_sha pay_tx)) (ctx_outputs (to_compact quick_sha pay_tx))
    [(1001, toy_ssign 1001 (ctx_hash quick_sha (to_compact quick_sha pay_tx)));
     (1002, toy_ssign 1002 (ctx_hash quick_sha (to_compact quick_sha pay_tx)))].
Lemma attested_case : typed_compact_tx attested_pay /\ sha_fits quick_sha /\
  check_attestations quick_sha all_parse strict_schnorr attested_pay [1001; 1002; 1003] 2 = true /\
  (forall pk, In pk [1001; 1002; 1003] -> ~ In pk [1003] -> honest_key quick_sha all_parse strict_schnorr pk).
Proof.
  split; [|split; [exact quick_fits|split; [vm_compute; reflexivity|]]].
  - destruct (to_compact_typed quick_sha pay_tx quick_fits pay_typed_full) as [A _].
    split; [exact A|]. unfold attested_pay. cbn [fst snd ctx_atts]. split; [vm_compute; reflexivity|].
    split; [cbn [map fst]; apply NoDup_cons_2; [rewrite elem_of_list_singleton; discriminate|apply NoDup_singleton]|].
    repeat constructor; cbn [fst snd]; try (vm_compute; reflexivity).
  - intros pk Hp _. apply strict_honest. cbn in Hp. lia.
Qed.

(** Two shards. *)
Definition two_shards : list ((N * N) * bool) := [((0, 127), true); ((128, 255), true)].
Lemma two_shards_disjoint : disjoint_shards two_shards.
Proof.
  intros j k h (r1 & c1 & E1 & R1) (r2 & c2 & E2 & R2). unfold two_shards in *.
  unfold in_range in R1, R2. apply andb_true_iff in R1 as [A1 B1], R2 as [A2 B2]. apply N.leb_le in A1, B1, A2, B2.
  destruct j as [|[|j]], k as [|[|k]]; cbn [nth_error] in E1, E2; try reflexivity;
    try (destruct j; discriminate E1); try (destruct k; discriminate E2);
    injection E1 as <- <-; injection E2 as <- <-; cbn [fst snd] in *; lia.
Qed.
Definition low_hash : hash := 5.
Definition high_hash : hash := 2 ^ 255.
Definition both_tx : compact_tx := CompactTx 1 [low_hash; high_hash] [3] [].
Definition low_tx : compact_tx := CompactTx 1 [low_hash] [3] [].
Lemma shards_case : disjoint_shards two_shards /\
  holds_input two_shards 0 low_hash /\ holds_input two_shards 1 high_hash /\
  send_to_shards two_shards 0 both_tx = Some [0%nat] /\
  send_to_shards two_shards 1 both_tx = Some [] /\
  send_to_shards two_shards 0 low_tx = Some [0%nat] /\ send_to_shards two_shards 1 low_tx = None.
Proof.
  split; [exact two_shards_disjoint|]. split; [exists (0, 127), true; split; reflexivity|].
  split; [exists (128, 255), true; split; reflexivity|]. repeat split.
Qed.
Lemma two_of_three : se_threshold sen1 <= 1 + N.of_nat (se_peers sen1).
Proof. vm_compute. discriminate. Qed.
