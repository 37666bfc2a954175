(** Proofs about hexadecimal conversion. *)
From stdpp Require Import base option list.
From Coq Require Import NArith Lia.
From Verif Require Import Base HexModel HexSpec.
Open Scope N_scope.

(** Facts about all bytes are checked by running over the 256 cases. *)
Lemma all_bytes (P : N -> bool) :
  forallb P (map N.of_nat (seq 0 256)) = true -> forall b, is_byte b -> P b = true.
Proof.
  intros H b B. rewrite forallb_forall in H. apply H.
  apply in_map_iff. exists (N.to_nat b). split; [lia|].
  apply in_seq. unfold is_byte in B. lia.
Qed.

Lemma read_byte_hex b : is_byte b -> read_hex (byte_hex b) = Some b.
Proof.
  intros B.
  apply (all_bytes (fun b => match read_hex (byte_hex b) with Some v => v =? b | None => false end)) in B.
  - destruct (read_hex (byte_hex b)); [|discriminate]. apply N.eqb_eq in B. congruence.
  - vm_compute. reflexivity.
Qed.

Lemma to_hex_length b : length (to_hex b) = (2 * length b)%nat.
Proof. unfold to_hex. induction b; cbn; lia. Qed.

Lemma hex_loop_to_hex b : Forall is_byte b -> hex_loop (to_hex b) = Some b.
Proof.
  induction b as [|x b IH]; intros F; [done|]. inversion F; subst.
  unfold to_hex in *. cbn [map concat app byte_hex hex_loop].
  change [digit (x / 16); digit (x mod 16)] with (byte_hex x).
  rewrite read_byte_hex, IH by done. rewrite N.mod_small by done. done.
Qed.

Lemma even_twice n : N.of_nat (2 * n) mod 2 = 0.
Proof. replace (N.of_nat (2 * n)) with (N.of_nat n * 2) by lia. apply N.mod_mul. done. Qed.

Lemma roundtrip b : Forall is_byte b ->
  (from_hex (to_hex b) = Some b <-> b <> [] /\ (N.of_nat (length b) <= 51200)) /\
  (from_hex (to_hex b) = None <-> ~ (b <> [] /\ (N.of_nat (length b) <= 51200))).
Proof.
  intros F. unfold from_hex. rewrite to_hex_length, even_twice, (N.eqb_refl 0).
  rewrite hex_loop_to_hex by done.
  destruct (Nat.eqb_spec (2 * length b) 0) as [E|E]; cbn [negb orb].
  - destruct b; [|cbn in E; lia]. split; split; try done; intros; tauto.
  - destruct (N.ltb_spec 102400 (N.of_nat (2 * length b))).
    + split; split; intros; try done; lia.
    + split; split; intros; try done.
      * split; [intros ->; done|lia].
      * exfalso. apply H0. split; [intros ->; done|lia].
Qed.

Lemma starts_with_app p s : starts_with p (p ++ s) = true.
Proof. induction p; cbn; [done|]. rewrite N.eqb_refl. done. Qed.

Lemma prefixed_same p b : from_hex_prefixed p (to_hex_prefixed p b) = from_hex (to_hex b).
Proof.
  unfold from_hex_prefixed, to_hex_prefixed. rewrite starts_with_app, drop_app.
  rewrite to_hex_length, even_twice. done.
Qed.

Lemma unprefixed_same b : from_hex_prefixed ox (to_hex b) = from_hex (to_hex b).
Proof.
  unfold from_hex_prefixed.
  replace (starts_with ox (to_hex b)) with false.
  - rewrite to_hex_length, even_twice. done.
  - destruct b as [|x b]; [done|]. cbn [to_hex map concat byte_hex app ox starts_with].
    unfold to_hex. cbn [map concat byte_hex app]. cbn [starts_with ox].
    symmetry. apply andb_false_iff. right. apply andb_false_iff. left.
    apply N.eqb_neq. unfold digit.
    pose proof (N.mod_lt x 16 ltac:(done)). destruct (N.ltb_spec (x mod 16) 10); lia.
Qed.

Lemma hash_loop_to_hex b : Forall is_byte b -> hash_loop (to_hex b) = b.
Proof.
  induction b as [|x b IH]; intros F; [done|]. inversion F; subst.
  unfold to_hex in *. cbn [map concat app byte_hex hash_loop].
  change [digit (x / 16); digit (x mod 16)] with (byte_hex x).
  rewrite read_byte_hex, IH by done. cbn. rewrite N.mod_small by done. done.
Qed.

Lemma hash_roundtrip b : Forall is_byte b -> length b = 32%nat ->
  hash_from_hex (to_hex b) = HashIs b.
Proof.
  intros F L. unfold hash_from_hex. rewrite hash_loop_to_hex, L by done. done.
Qed.

(** Pairs of digits. *)
Lemma read_pair a b : is_hex a -> is_hex b ->
  exists v, read_hex [a; b] = Some v /\ is_byte v /\ byte_hex v = [lower a; lower b].
Proof.
  intros A B.
  assert (C : forallb (fun a => forallb (fun b => match read_hex [a; b] with
      | Some v => (v <? 256) && bool_decide (byte_hex v = [lower a; lower b]) | None => false end)
      hex_digits) hex_digits = true) by (vm_compute; reflexivity).
  rewrite forallb_forall in C. apply elem_of_list_In in A, B. specialize (C a A).
  rewrite forallb_forall in C. specialize (C b B).
  destruct (read_hex [a; b]) as [v|]; [|discriminate].
  apply andb_true_iff in C as [C1 C2]. apply N.ltb_lt in C1. apply bool_decide_eq_true in C2.
  exists v. auto.
Qed.

Lemma hex_loop_digits n : forall s, length s = (2 * n)%nat -> Forall is_hex s ->
  exists b, hex_loop s = Some b /\ Forall is_byte b /\ to_hex b = map lower s.
Proof.
  induction n as [|n IH]; intros s L F.
  - destruct s; [|cbn in L; lia]. exists []. repeat split; constructor.
  - destruct s as [|x [|y s]]; cbn in L; [lia|lia|].
    inversion F as [|? ? X F1]; subst. inversion F1 as [|? ? Y F2]; subst.
    destruct (IH s ltac:(lia) F2) as (b & B1 & B2 & B3).
    destruct (read_pair x y X Y) as (v & V1 & V2 & V3).
    exists (v :: b). cbn [hex_loop]. rewrite V1, B1, N.mod_small by done.
    split; [done|]. split; [constructor; done|].
    unfold to_hex in *. cbn [map concat]. rewrite V3, B3. done.
Qed.

Lemma even_half (n : nat) : N.of_nat n mod 2 = 0 -> exists k, n = (2 * k)%nat.
Proof.
  intros H. exists (N.to_nat (N.of_nat n / 2)).
  pose proof (N.div_mod (N.of_nat n) 2 ltac:(done)). lia.
Qed.

Lemma accepts_hex s : Forall is_hex s -> s <> [] -> N.of_nat (length s) mod 2 = 0 ->
  N.of_nat (length s) <= 102400 ->
  exists b, from_hex s = Some b /\ Forall is_byte b /\ to_hex b = map lower s.
Proof.
  intros F NE EV L. destruct (even_half _ EV) as [k K].
  destruct (hex_loop_digits k s K F) as (b & B).
  exists b. unfold from_hex. rewrite EV, (N.eqb_refl 0).
  destruct (Nat.eqb_spec (length s) 0) as [E|E]; [destruct s; done|].
  destruct (N.ltb_spec 102400 (N.of_nat (length s))); [lia|]. cbn. tauto.
Qed.

Lemma rejects_length s : s = [] \/ N.of_nat (length s) mod 2 <> 0 \/ 102400 < N.of_nat (length s) ->
  from_hex s = None.
Proof.
  intros H. unfold from_hex.
  destruct (Nat.eqb_spec (length s) 0); [done|].
  destruct (N.eqb_spec (N.of_nat (length s) mod 2) 0); [|done].
  destruct (N.ltb_spec 102400 (N.of_nat (length s))); [done|].
  exfalso. destruct H as [->|[H|H]]; [done|done|lia].
Qed.




Lemma digit_value_hex c d : digit_value c = Some d -> is_hex c.
Proof.
  unfold digit_value, is_hex, hex_digits. intros H.
  repeat rewrite elem_of_cons.
  destruct (_ && _) eqn:E1 in H;
    [apply andb_true_iff in E1 as [E1 E2]; apply N.leb_le in E1, E2; lia|].
  destruct (_ && _) eqn:E2 in H;
    [apply andb_true_iff in E2 as [E2 E3]; apply N.leb_le in E2, E3; lia|].
  destruct (_ && _) eqn:E3 in H; [|done].
  apply andb_true_iff in E3 as [E3 E4]; apply N.leb_le in E3, E4; lia.
Qed.

Lemma read_digits_start c s v : read_digits (c :: s) 0 false = Some v -> is_hex c.
Proof.
  cbn. destruct (digit_value c) eqn:E; [|done]. intros _. eapply digit_value_hex; eauto.
Qed.

Lemma read_prefixed_start c s v : read_prefixed (c :: s) = Some v -> is_hex c.
Proof.
  unfold read_prefixed. intros H.
  destruct (N.eq_dec c 48) as [->|N0]; [unfold is_hex, hex_digits; rewrite !elem_of_cons; auto|].
  eapply read_digits_start. rewrite <- H.
  destruct c as [|p]; [done|]. do 6 (destruct p; try done).
Qed.

Lemma read_hex_start a b v : read_hex [a; b] = Some v -> starts_number a.
Proof.
  unfold read_hex, starts_number. cbn [skip_space].
  destruct (is_space a) eqn:A; [auto|].
  intros H.
  destruct (N.eq_dec a 45) as [->|N1]; [auto|].
  destruct (N.eq_dec a 43) as [->|N2]; [auto|].
  left. eapply read_prefixed_start. rewrite <- H.
  destruct a as [|p]; [done|].
  do 6 (destruct p; try done); exfalso; (apply N1; done) || (apply N2; done).
Qed.

Lemma hex_loop_starts s b : hex_loop s = Some b ->
  forall i c, (2 * i + 1 < length s)%nat -> s !! (2 * i)%nat = Some c -> starts_number c.
Proof.
  revert b. assert (forall n s b, (length s <= n)%nat -> hex_loop s = Some b ->
    forall i c, (2 * i + 1 < length s)%nat -> s !! (2 * i)%nat = Some c -> starts_number c) as G.
  { induction n as [|n IH]; intros t b L H i c I C.
    - lia.
    - destruct t as [|x [|y t]]; cbn in I; [lia|lia|]. cbn [hex_loop] in H.
      destruct (read_hex [x; y]) eqn:R; [|done].
      destruct (hex_loop t) as [u|] eqn:T; [|done].
      destruct i as [|i].
      + cbn in C. injection C as <-. eapply read_hex_start; eauto.
      + replace (2 * S i)%nat with (S (S (2 * i))) in C by lia. cbn in C.
        apply (IH t u ltac:(cbn in L; lia) T i c); [lia|done]. }
  eauto.
Qed.

Lemma rejects_start s b : from_hex s = Some b ->
  forall i c, s !! (2 * i)%nat = Some c -> starts_number c.
Proof.
  unfold from_hex. intros H i c C.
  destruct (Nat.eqb_spec (length s) 0); [done|].
  destruct (N.eqb_spec (N.of_nat (length s) mod 2) 0) as [EV|]; [|done].
  destruct (N.ltb_spec 102400 (N.of_nat (length s))); [done|]. cbn in H.
  apply (hex_loop_starts _ _ H i); [|done].
  apply lookup_lt_Some in C. destruct (even_half _ EV) as [k K]. lia.
Qed.

Lemma hex_cases :
  from_hex [49; 103] = Some [1] /\ from_hex [32; 49] = Some [1] /\ from_hex [45; 49] = Some [255] /\
  ~ is_hex 103 /\ ~ is_hex 32 /\ ~ is_hex 45.
Proof.
  unfold is_hex. split; [reflexivity|]. split; [reflexivity|]. split; [reflexivity|].
  split; [|split]; apply (proj1 (bool_decide_eq_false _)); vm_compute; reflexivity.
Qed.

Lemma hash_cases :
  hash_from_hex [49; 50] = Indeterminate [18] /\
  hash_from_hex (repeat 48 66) = OutOfBounds /\
  hash_from_hex (repeat 122 64) = HashIs (repeat 0 32).
Proof. vm_compute. auto. Qed.
