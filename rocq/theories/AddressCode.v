(** The checksum of addresses is linear: no two texts with right checksums differ in fewer
    than five of at most 60 places. *)
From stdpp Require Import base list option nmap.
From Coq Require Import NArith Lia Bool.
From Verif Require Import Base AddressModel.
Open Scope N_scope.

(** * The step without input *)

Definition turn (c : N) : N := polymod_step c 0.

Lemma add_if_xor c0 n k c : add_if c0 n k c = N.lxor c (if N.testbit c0 n then k else 0).
Proof. unfold add_if. destruct (N.testbit c0 n); [done|]. by rewrite N.lxor_0_r. Qed.

Lemma xor_last a v b : N.lxor (N.lxor a v) b = N.lxor (N.lxor a b) v.
Proof. by rewrite !N.lxor_assoc, (N.lxor_comm v b). Qed.

Lemma step_turn c v : polymod_step c v = N.lxor (turn c) v.
Proof.
  unfold turn, polymod_step. rewrite !add_if_xor, N.lxor_0_r.
  by rewrite !(xor_last _ v).
Qed.

Lemma choose_xor (a b : bool) k :
  (if xorb a b then k else 0) = N.lxor (if a then k else 0) (if b then k else 0).
Proof. destruct a, b; cbn [xorb]; by rewrite ?N.lxor_nilpotent, ?N.lxor_0_r, ?N.lxor_0_l. Qed.

Lemma shiftl_xor a b n : N.shiftl (N.lxor a b) n = N.lxor (N.shiftl a n) (N.shiftl b n).
Proof. apply N.shiftl_lxor. Qed.

Lemma land_xor a b m : N.land (N.lxor a b) m = N.lxor (N.land a m) (N.land b m).
Proof.
  apply N.bits_inj. intros i. rewrite N.land_spec, !N.lxor_spec, !N.land_spec.
  by destruct (N.testbit a i), (N.testbit b i), (N.testbit m i).
Qed.

Lemma swap4 a b c d : N.lxor (N.lxor a b) (N.lxor c d) = N.lxor (N.lxor a c) (N.lxor b d).
Proof.
  rewrite <- !N.lxor_assoc. f_equal. rewrite !N.lxor_assoc. f_equal. apply N.lxor_comm.
Qed.

Lemma turn_xor a b : turn (N.lxor a b) = N.lxor (turn a) (turn b).
Proof.
  unfold turn, polymod_step. rewrite !add_if_xor, !N.lxor_0_r.
  rewrite N.shiftr_lxor, !N.lxor_spec, !choose_xor, land_xor, shiftl_xor.
  symmetry. do 5 (etransitivity; [apply swap4|]; f_equal).
Qed.

Lemma turn_0 : turn 0 = 0.
Proof. reflexivity. Qed.

(** * Bounds *)

Lemma lt_pow_bits a n : a < 2 ^ n <-> forall i, n <= i -> N.testbit a i = false.
Proof.
  split.
  - intros H i Hi. destruct (decide (a = 0)) as [->|Ha]; [apply N.bits_0|].
    apply N.bits_above_log2. apply N.log2_lt_pow2 in H; lia.
  - intros H. destruct (decide (a = 0)) as [->|Ha]; [apply N.neq_0_lt_0, N.pow_nonzero; lia|].
    apply N.log2_lt_pow2; [lia|]. destruct (N.lt_ge_cases (N.log2 a) n) as [|L]; [done|].
    specialize (H _ L). by rewrite N.bit_log2 in H.
Qed.

Lemma xor_bound a b n : a < 2 ^ n -> b < 2 ^ n -> N.lxor a b < 2 ^ n.
Proof.
  rewrite !lt_pow_bits. intros Ha Hb i Hi. by rewrite N.lxor_spec, Ha, Hb.
Qed.

Lemma turn_bound c : turn c < 2 ^ 30.
Proof.
  unfold turn, polymod_step. rewrite !add_if_xor, N.lxor_0_r.
  assert (forall (b : bool) k, k < 2 ^ 30 -> (if b then k else 0) < 2 ^ 30) as Q.
  { intros [] k Hk; [done|]. by vm_compute. }
  repeat apply xor_bound; try (apply Q; by vm_compute).
  rewrite N.shiftl_mul_pow2. change 0x1ffffff with (N.ones 25). rewrite N.land_ones.
  pose proof (N.mod_lt c (2 ^ 25) ltac:(by vm_compute)) as L.
  change (2 ^ 30) with (2 ^ 25 * 2 ^ 5). apply N.mul_lt_mono_pos_r; [by vm_compute|done].
Qed.

Lemma step_bound c v : v < 32 -> polymod_step c v < 2 ^ 30.
Proof.
  intros Hv. rewrite step_turn. apply xor_bound; [apply turn_bound|].
  eapply N.lt_trans; [exact Hv|by vm_compute].
Qed.

(** * The step without input loses nothing *)

Lemma turn_zero c : c < 2 ^ 30 -> turn c = 0 -> c = 0.
Proof.
  intros Hc. unfold turn, polymod_step. rewrite !add_if_xor, N.lxor_0_r.
  set (x := N.shiftr c 25).
  assert (x < 32) as Hx.
  { unfold x. rewrite N.shiftr_div_pow2. apply N.div_lt_upper_bound; [by vm_compute|].
    exact Hc. }
  rewrite !N.lxor_assoc.
  set (g := N.lxor (if N.testbit x 0 then _ else _) _).
  intros H. apply N.lxor_eq in H.
  assert (N.land g 31 = 0) as Hg.
  { rewrite <- H. apply N.bits_inj. intros i. rewrite N.land_spec, N.bits_0.
    destruct (N.lt_ge_cases i 5) as [L|L].
    - by rewrite N.shiftl_spec_low.
    - change 31 with (N.ones 5). rewrite N.ones_spec_high by done. apply andb_false_r. }
  assert (x = 0) as X.
  { clear -Hx Hg.
    assert (forall y, y < 32 ->
      N.land (N.lxor (if N.testbit y 0 then 0x3b6a57b2 else 0)
        (N.lxor (if N.testbit y 1 then 0x26508e6d else 0)
          (N.lxor (if N.testbit y 2 then 0x1ea119fa else 0)
            (N.lxor (if N.testbit y 3 then 0x3d4233dd else 0)
               (if N.testbit y 4 then 0x2a1462b3 else 0))))) 31 = 0 -> y = 0) as Q.
    { intros y Hy.
      assert (forallb (fun n => let y := N.of_nat n in
        negb (N.land (N.lxor (if N.testbit y 0 then 0x3b6a57b2 else 0)
        (N.lxor (if N.testbit y 1 then 0x26508e6d else 0)
          (N.lxor (if N.testbit y 2 then 0x1ea119fa else 0)
            (N.lxor (if N.testbit y 3 then 0x3d4233dd else 0)
               (if N.testbit y 4 then 0x2a1462b3 else 0))))) 31 =? 0) || (y =? 0))
        (seq 0 32) = true) as F by (by vm_compute).
      rewrite forallb_forall in F. specialize (F (N.to_nat y)).
      cbv zeta in F. rewrite N2Nat.id in F.
      intros E. rewrite E in F. cbn [N.eqb negb orb] in F.
      apply N.eqb_eq, F, in_seq. lia. }
    by apply Q. }
  unfold g in H. rewrite X in H. cbn [N.testbit] in H. rewrite !N.lxor_0_r in H.
  rewrite N.shiftl_mul_pow2 in H. change 0x1ffffff with (N.ones 25) in H.
  rewrite N.land_ones in H.
  unfold x in X. rewrite N.shiftr_div_pow2 in X.
  pose proof (N.div_mod c (2 ^ 25) ltac:(by vm_compute)) as D. rewrite X in D.
  apply N.eq_mul_0 in H as [H|H]; [rewrite H in D; by rewrite D|by vm_compute in H].
Qed.

Lemma turn_inj a b : a < 2 ^ 30 -> b < 2 ^ 30 -> turn a = turn b -> a = b.
Proof.
  intros Ha Hb H. apply N.lxor_eq, turn_zero; [by apply xor_bound|].
  by rewrite turn_xor, H, N.lxor_nilpotent.
Qed.

(** * Sums *)

(** The sum of [turn]ed values: the value at the head is turned [i] times, the next one
    [i + 1] times, and so on. *)
Fixpoint turns (i : nat) (x : N) : N := match i with O => x | S j => turn (turns j x) end.

Fixpoint sum (i : nat) (l : list N) : N :=
  match l with
  | [] => 0
  | x :: r => N.lxor (turns i x) (sum (S i) r)
  end.

Lemma turns_xor i a b : turns i (N.lxor a b) = N.lxor (turns i a) (turns i b).
Proof. induction i as [|i IH]; cbn; [done|]. by rewrite IH, turn_xor. Qed.

Lemma turns_0 i : turns i 0 = 0.
Proof. induction i as [|i IH]; cbn; [done|]. by rewrite IH. Qed.

Lemma sum_S i l : sum (S i) l = turn (sum i l).
Proof.
  revert i. induction l as [|x l IH]; intros i; cbn; [done|]. by rewrite turn_xor, IH.
Qed.

Lemma turns_bound i x : x < 2 ^ 30 -> turns i x < 2 ^ 30.
Proof. destruct i; cbn; [done|]. intros _. apply turn_bound. Qed.

Lemma sum_bound i l : Forall (fun v => v < 32) l -> sum i l < 2 ^ 30.
Proof.
  intros H. revert i. induction H as [|x l Hx _ IH]; intros i; cbn; [by vm_compute|].
  apply xor_bound; [|apply IH]. apply turns_bound. eapply N.lt_trans; [exact Hx|by vm_compute].
Qed.

Lemma polymod_from_sum l : forall c,
  fold_left polymod_step l c = N.lxor (turns (length l) c) (sum 0 (rev l)).
Proof.
  induction l as [|v l IH] using rev_ind; intros c; cbn.
  - by rewrite N.lxor_0_r.
  - rewrite fold_left_app. cbn. rewrite IH, step_turn, rev_app_distr. cbn.
    rewrite app_length, Nat.add_1_r. cbn. rewrite turn_xor, sum_S, N.lxor_assoc. f_equal.
    apply N.lxor_comm.
Qed.

(** The difference of two lists. *)
Fixpoint xors (a b : list N) : list N :=
  match a, b with
  | x :: a, y :: b => N.lxor x y :: xors a b
  | _, _ => []
  end.

Lemma sum_xors a b : length a = length b -> forall i,
  N.lxor (sum i a) (sum i b) = sum i (xors a b).
Proof.
  revert b. induction a as [|x a IH]; intros [|y b] H i; try discriminate; cbn; [done|].
  injection H as H. by rewrite swap4, IH, turns_xor.
Qed.

(** * The table *)

Definition weight (l : list N) : nat := length (filter (fun x => x <> 0) l).

Definition places : list nat := seq 1 59.
Definition vals : list N := map N.of_nat (seq 1 31).
Definition row (i : nat) : list N := map (turns i) vals.

(** The rows of [n] places from [i] on, computed one from the other. *)
Fixpoint rows (n : nat) (r : list N) : list (list N) :=
  match n with
  | O => []
  | S m => r :: rows m (map turn r)
  end.

Lemma row_S i : map turn (row i) = row (S i).
Proof. unfold row. by rewrite map_map. Qed.

Lemma rows_lookup n i r j : (j < n)%nat ->
  r = row i -> rows n r !! j = Some (row (i + j)).
Proof.
  revert i r j. induction n as [|n IH]; intros i r j Hj ->; [lia|].
  destruct j as [|j]; cbn; [by rewrite Nat.add_0_r|].
  rewrite (IH (S i)); [by rewrite Nat.add_succ_r|lia|apply row_S].
Qed.

Definition table : list (list N) := rows 59 (row 1).

(** The sums of a value at place 0 and at most one at another place. *)
Definition build (t es : list N) : Nmap unit :=
  fold_left (fun m e => fold_left (fun m w => <[N.lxor e w := tt]> m) t m) es ∅.

Definition others : list N := 0 :: concat table.

Definition absent (m : Nmap unit) (x : N) : bool :=
  match m !! x with Some _ => false | None => true end.

Fixpoint pairs_absent (m : Nmap unit) (t : list (list N)) : bool :=
  match t with
  | [] => true
  | r :: rest =>
      forallb (fun w => absent m w && forallb (forallb (fun w' => absent m (N.lxor w w'))) rest) r
      && pairs_absent m rest
  end.

Definition check (m : Nmap unit) (t : list (list N)) : bool := absent m 0 && pairs_absent m t.

Lemma check_true : check (build others vals) table = true.
Proof. vm_compute. reflexivity. Qed.

Lemma in_table j e : (1 <= j <= 59)%nat -> e <> 0 -> e < 32 ->
  exists r, table !! (j - 1)%nat = Some r /\ In (turns j e) r.
Proof.
  intros Hj He1 He2. exists (row j). split.
  - unfold table. rewrite (rows_lookup 59 1); [|lia|done]. do 2 f_equal. lia.
  - unfold row, vals. apply in_map. apply in_map_iff. exists (N.to_nat e).
    split; [lia|]. apply in_seq. lia.
Qed.

Lemma in_firsts_inner e l : forall m w,
  (In w l \/ is_Some (m !! N.lxor e w)) ->
  is_Some (fold_left (fun m w => <[N.lxor e w := tt]> m) l (m : Nmap unit) !! N.lxor e w).
Proof.
  induction l as [|x l IH]; cbn [fold_left]; intros m w [H|H]; [done|done| |].
  - destruct H as [->|H]; apply IH; [right; by rewrite lookup_insert|by left].
  - apply IH. right. destruct (decide (N.lxor e x = N.lxor e w)) as [->|N].
    + by rewrite lookup_insert.
    + by rewrite lookup_insert_ne.
Qed.

Lemma keeps_inner e l : forall m x, is_Some (m !! x) ->
  is_Some (fold_left (fun m w => <[N.lxor e w := tt]> m) l (m : Nmap unit) !! x).
Proof.
  induction l as [|y l IH]; cbn [fold_left]; intros m x H; [done|]. apply IH.
  destruct (decide (N.lxor e y = x)) as [->|N]; [by rewrite lookup_insert|].
  by rewrite lookup_insert_ne.
Qed.

Lemma keeps_outer t es : forall m x, is_Some (m !! x) ->
  is_Some (fold_left (fun m e => fold_left (fun m w => <[N.lxor e w := tt]> m) t m)
    es (m : Nmap unit) !! x).
Proof.
  induction es as [|y l IH]; cbn [fold_left]; intros m x H; [done|].
  apply IH. by apply keeps_inner.
Qed.

Lemma in_firsts_outer t es : forall m e w, In e es -> In w t ->
  is_Some (fold_left (fun m e => fold_left (fun m w => <[N.lxor e w := tt]> m) t m)
    es (m : Nmap unit) !! N.lxor e w).
Proof.
  induction es as [|y l IH]; cbn [fold_left]; intros m e w H Hw; [done|].
  destruct H as [->|H]; [|by apply IH].
  apply keeps_outer. apply in_firsts_inner. by left.
Qed.

Lemma in_vals e : e <> 0 -> e < 32 -> In e vals.
Proof.
  intros. unfold vals. apply in_map_iff. exists (N.to_nat e). split; [lia|]. apply in_seq. lia.
Qed.

Lemma in_concat_table j e : (1 <= j <= 59)%nat -> e <> 0 -> e < 32 ->
  In (turns j e) (concat table).
Proof.
  intros Hj H1 H2. destruct (in_table j e Hj H1 H2) as (r & R1 & R2).
  apply in_concat. exists r. split; [|done]. apply elem_of_list_In.
  by eapply elem_of_list_lookup_2.
Qed.

Lemma in_others j e : (1 <= j <= 59)%nat -> e <> 0 -> e < 32 -> In (turns j e) others.
Proof. intros. unfold others. apply in_cons. by apply in_concat_table. Qed.

Lemma pairs_absent_spec m t : pairs_absent m t = true ->
  (forall i r w, t !! i = Some r -> In w r -> absent m w = true) /\
  (forall i j r r' w w', (i < j)%nat -> t !! i = Some r -> t !! j = Some r' ->
    In w r -> In w' r' -> absent m (N.lxor w w') = true).
Proof.
  induction t as [|r t IH]; cbn [pairs_absent]; intros H; [by split|].
  apply andb_true_iff in H as [H1 H2]. destruct (IH H2) as [IH1 IH2].
  rewrite forallb_forall in H1. split.
  - intros [|i] r' w; cbn.
    + intros [= <-] Hw. specialize (H1 _ Hw). by apply andb_true_iff in H1 as [? _].
    + apply IH1.
  - intros i j r1 r2 w w' Hij. destruct j as [|j]; [lia|]. destruct i as [|i]; cbn.
    + intros [= <-] Hj Hw Hw'. specialize (H1 _ Hw). apply andb_true_iff in H1 as [_ Q].
      rewrite forallb_forall in Q. specialize (Q r2).
      rewrite forallb_forall in Q. apply Q; [|done].
      apply elem_of_list_In. by eapply elem_of_list_lookup_2.
    + apply IH2. lia.
Qed.

Definition found (m : Nmap unit) (t es : list N) : Prop :=
  forall e w, In e es -> In w t -> absent m (N.lxor e w) = true -> False.

Lemma found_build t es : found (build t es) t es.
Proof.
  intros e w He Hw A. destruct (in_firsts_outer t es ∅ e w He Hw) as [u Q].
  unfold absent, build in A. by rewrite Q in A.
Qed.

Lemma checked : exists m, found m others vals /\ check m table = true.
Proof. exists (build others vals). split; [apply found_build|apply check_true]. Qed.

Lemma check_spec : exists m,
  (forall e w, e <> 0 -> e < 32 -> In w others -> absent m (N.lxor e w) = true -> False) /\
  absent m 0 = true /\
  (forall i e, (1 <= i <= 59)%nat -> e <> 0 -> e < 32 -> absent m (turns i e) = true) /\
  (forall i j e e', (1 <= i)%nat -> (i < j <= 59)%nat -> e <> 0 -> e < 32 -> e' <> 0 -> e' < 32 ->
    absent m (N.lxor (turns i e) (turns j e')) = true).
Proof.
  destruct checked as (m & F & C). exists m. unfold check in C.
  apply andb_true_iff in C as [C0 C]. apply pairs_absent_spec in C as [C1 C2].
  split; [intros e w H1 H2 H3; apply F; [by apply in_vals|done]|].
  split; [done|]. split.
  - intros i e Hi H1 H2. destruct (in_table i e Hi H1 H2) as (r & R1 & R2). by eapply C1.
  - intros i j e e' Hi Hj H1 H2 H3 H4.
    destruct (in_table i e ltac:(lia) H1 H2) as (r & R1 & R2).
    destruct (in_table j e' ltac:(lia) H3 H4) as (r' & R1' & R2').
    eapply (C2 (i - 1)%nat (j - 1)%nat); eauto. lia.
Qed.

Lemma weight_cons x l : weight (x :: l) = ((if decide (x = 0%N) then 0 else 1) + weight l)%nat.
Proof.
  unfold weight. destruct (decide (x = 0)) as [->|N].
  - rewrite filter_cons_False; [done|]. intros Q. by apply Q.
  - by rewrite filter_cons_True.
Qed.

(** The first value that is not 0. *)
Lemma first_place l : forall i, Forall (fun v => v < 32) l -> (i + length l <= 60)%nat ->
  (weight l = 0%nat /\ sum i l = 0) \/
  exists j e r, (i <= j <= 59)%nat /\ e <> 0 /\ e < 32 /\ Forall (fun v => v < 32) r /\
    (S j + length r <= 60)%nat /\ weight l = S (weight r) /\
    sum i l = N.lxor (turns j e) (sum (S j) r).
Proof.
  induction l as [|x l IH]; intros i F L; [by left|].
  inversion F as [|? ? Fx Fl]; subst. cbn [length] in L. rewrite weight_cons. cbn [sum].
  destruct (decide (x = 0)) as [->|N].
  - rewrite turns_0, N.lxor_0_l. destruct (IH (S i) Fl ltac:(lia)) as [Q|(j & e & r & Q)].
    + by left.
    + right. exists j, e, r. destruct Q as (Q1 & Q). split; [lia|]. exact Q.
  - right. exists i, x, l. do 5 (split; [done || lia|]). split; [done|]. done.
Qed.

(** Fewer than five values that are not 0, among 60, do not cancel out. *)
Theorem no_cancel l : Forall (fun v => v < 32) l -> (length l <= 60)%nat ->
  (1 <= weight l <= 4)%nat -> sum 0 l <> 0.
Proof.
  intros F L W. induction l as [|e l IH]; [cbn in W; lia|].
  inversion F as [|? ? Fe Fl]; subst. cbn [length] in L. rewrite weight_cons in W.
  destruct (decide (e = 0)) as [->|He].
  - cbn [sum turns]. rewrite N.lxor_0_l, sum_S. intros Q. apply turn_zero in Q.
    + revert Q. apply IH; [done|lia|lia].
    + by apply sum_bound.
  - cbn [sum turns]. intros Q. apply N.lxor_eq in Q.
    destruct check_spec as (m & A & C0 & C1 & C2).
    destruct (first_place l 1 Fl ltac:(lia)) as [[W1 S1]|(j1 & e1 & r1 & J1 & H1 & H1' & F1 & L1 & W1 & S1)].
    { rewrite S1 in Q. done. }
    rewrite S1 in Q.
    destruct (first_place r1 (S j1) F1 ltac:(lia)) as [[W2 S2]|(j2 & e2 & r2 & J2 & H2 & H2' & F2 & L2 & W2 & S2)].
    { rewrite S2, N.lxor_0_r in Q.
      apply (A e (turns j1 e1)); [done|done|apply in_others; [lia|done|done]|].
      by rewrite <- Q, N.lxor_nilpotent. }
    rewrite S2 in Q.
    assert (N.lxor e (turns j1 e1) = N.lxor (turns j2 e2) (sum (S j2) r2)) as Q'.
    { rewrite Q at 1. rewrite xor_last, N.lxor_nilpotent. by rewrite N.lxor_0_l. }
    destruct (first_place r2 (S j2) F2 ltac:(lia)) as [[W3 S3]|(j3 & e3 & r3 & J3 & H3 & H3' & F3 & L3 & W3 & S3)].
    { rewrite S3, N.lxor_0_r in Q'.
      apply (A e (turns j1 e1)); [done|done|apply in_others; [lia|done|done]|].
      rewrite Q'. apply C1; [lia|done|done]. }
    rewrite S3 in Q'.
    destruct (first_place r3 (S j3) F3 ltac:(lia)) as [[W4 S4]|(j4 & e4 & r4 & J4 & H4 & H4' & F4 & L4 & W4 & S4)];
      [|lia].
    rewrite S4, N.lxor_0_r in Q'.
    apply (A e (turns j1 e1)); [done|done|apply in_others; [lia|done|done]|].
    rewrite Q'. apply C2; try done; lia.
Qed.

(** Two lists with the same checksum after the same beginning. *)
Lemma polymod_diff p a b : length a = length b ->
  polymod (p ++ a) = polymod (p ++ b) -> sum 0 (rev (xors a b)) = 0.
Proof.
  intros L. unfold polymod. rewrite !fold_left_app.
  generalize (fold_left polymod_step p 1). intros c.
  rewrite !polymod_from_sum, L. generalize (turns (length b) c). intros d H.
  assert (sum 0 (rev a) = sum 0 (rev b)) as Q.
  { apply (f_equal (N.lxor d)) in H. by rewrite <- !N.lxor_assoc, N.lxor_nilpotent, !N.lxor_0_l in H. }
  assert (forall x y : list N, length x = length y -> rev (xors x y) = xors (rev x) (rev y)) as R.
  { clear. induction x as [|x l IH] using rev_ind; intros y E.
    - destruct y; [done|discriminate].
    - destruct y as [|y l' _] using rev_ind; [rewrite app_length in E; cbn in E; lia|].
      rewrite !app_length in E. cbn in E.
      assert (xors (l ++ [x]) (l' ++ [y]) = xors l l' ++ [N.lxor x y]) as ->.
      { assert (length l = length l') as E' by lia. clear -E'. revert l' E'.
        induction l as [|a l IH]; intros [|b l'] E; try discriminate; cbn; [done|].
        f_equal. apply IH. cbn in E. lia. }
      rewrite !rev_app_distr. cbn. f_equal. apply IH. lia. }
  rewrite R by done. rewrite <- sum_xors by (by rewrite !rev_length).
  by rewrite Q, N.lxor_nilpotent.
Qed.
