(** ConvertBits keeps the number its values are the digits of. *)
From stdpp Require Import base list option.
From Coq Require Import NArith Lia Bool.
From Verif Require Import Base AddressModel AddressCode.
Open Scope N_scope.

(** The number with the digits [l], the most significant first, in base 2^[b]. *)
Definition num (b : N) (l : list N) : N := fold_left (fun n v => n * 2 ^ b + v) l 0.

Definition digits (b : N) (l : list N) : Prop := Forall (fun v => v < 2 ^ b) l.

Lemma num_from b l n : fold_left (fun n v => n * 2 ^ b + v) l n =
  n * 2 ^ (b * N.of_nat (length l)) + num b l.
Proof.
  revert n. induction l as [|v l IH] using rev_ind; intros n.
  - unfold num. cbn [fold_left length]. rewrite N.mul_0_r, N.pow_0_r. lia.
  - unfold num. rewrite !fold_left_app. cbn [fold_left]. rewrite IH. fold (num b l).
    rewrite app_length. cbn [length]. rewrite Nat2N.inj_add, N.mul_add_distr_l, N.pow_add_r.
    change (N.of_nat 1) with 1. rewrite N.mul_1_r. lia.
Qed.

Lemma num_app b l r : num b (l ++ r) = num b l * 2 ^ (b * N.of_nat (length r)) + num b r.
Proof. unfold num at 1. rewrite fold_left_app. apply num_from. Qed.

Lemma num_snoc b l v : num b (l ++ [v]) = num b l * 2 ^ b + v.
Proof. unfold num. by rewrite fold_left_app. Qed.

Lemma num_bound b l : digits b l -> num b l < 2 ^ (b * N.of_nat (length l)).
Proof.
  induction l as [|v l IH] using rev_ind; intros D.
  - unfold num. cbn [fold_left length]. rewrite N.mul_0_r, N.pow_0_r. lia.
  - apply Forall_app in D as [D1 D2]. apply list.Forall_cons in D2 as [D2 _].
    specialize (IH D1). rewrite num_snoc, app_length, Nat2N.inj_add, N.mul_add_distr_l, N.pow_add_r.
    change (N.of_nat (length [v])) with 1. rewrite N.mul_1_r.
    assert (num b l + 1 <= 2 ^ (b * N.of_nat (length l))) as Q by lia.
    apply (N.mul_le_mono_r _ _ (2 ^ b)) in Q. lia.
Qed.

Lemma pow_nz b : 2 ^ b <> 0.
Proof. apply N.pow_nonzero. lia. Qed.

Lemma num_inj b l r : digits b l -> digits b r -> length l = length r ->
  num b l = num b r -> l = r.
Proof.
  revert r. induction l as [|v l IH] using rev_ind; intros r D1 D2 L E.
  - by destruct r.
  - destruct r as [|w r _] using rev_ind; [rewrite app_length in L; cbn in L; lia|].
    rewrite !app_length in L. cbn in L.
    apply Forall_app in D1 as [D1 D1']. apply list.Forall_cons in D1' as [D1' _].
    apply Forall_app in D2 as [D2 D2']. apply list.Forall_cons in D2' as [D2' _].
    rewrite !num_snoc in E.
    assert (num b l = num b r /\ v = w) as [E1 ->].
    { rewrite !(N.mul_comm _ (2 ^ b)) in E. by apply (N.div_mod_unique (2 ^ b)). }
    f_equal. apply IH; [done|done|lia|done].
Qed.

(** The digits in front. *)
Lemma num_take b l k : digits b l ->
  num b (take k l) = num b l / 2 ^ (b * N.of_nat (length l - k)).
Proof.
  intros D. rewrite <- (take_drop k l) at 2. rewrite num_app, drop_length.
  rewrite N.div_add_l by apply pow_nz.
  rewrite N.div_small; [lia|].
  assert (digits b (drop k l)) as Q by (by apply Forall_drop).
  apply num_bound in Q. by rewrite drop_length in Q.
Qed.

(** * The loops *)

Lemma land_low a n : N.land a (2 ^ n - 1) = a mod 2 ^ n.
Proof. rewrite N.sub_1_r, <- N.ones_equiv. apply N.land_ones. Qed.

Lemma mod_pow_le a m n : n <= m -> (a mod 2 ^ m) mod 2 ^ n = a mod 2 ^ n.
Proof.
  intros L. replace m with (n + (m - n)) by lia. rewrite N.pow_add_r.
  rewrite N.mod_mul_r by apply pow_nz. rewrite (N.mul_comm (2 ^ n)), N.mod_add by apply pow_nz.
  apply N.mod_mod, pow_nz.
Qed.

Lemma div_mod_pow a m n : (a mod 2 ^ (m + n)) / 2 ^ n = (a / 2 ^ n) mod 2 ^ m.
Proof.
  rewrite N.add_comm, N.pow_add_r, N.mod_mul_r by apply pow_nz.
  rewrite (N.mul_comm (2 ^ n)), N.div_add by apply pow_nz.
  rewrite (N.div_small (a mod 2 ^ n)) by (apply N.mod_lt, pow_nz). lia.
Qed.

(** [drain] gives the digits of the bits above the remaining ones. *)
Lemma drain_spec fuel tobits acc bits out b : 0 < tobits -> (N.to_nat bits <= fuel)%nat ->
  drain fuel tobits acc bits = (out, b) ->
  b = bits mod tobits /\ digits tobits out /\
  N.of_nat (length out) = bits / tobits /\
  num tobits out = (acc mod 2 ^ bits) / 2 ^ b.
Proof.
  intros T. revert bits out b. induction fuel as [|f IH]; cbn [drain]; intros bits out b L E.
  - injection E as <- <-. assert (bits = 0) as -> by lia. rewrite N.mod_0_l, N.div_0_l by lia.
    split; [done|]. split; [by apply list.Forall_nil|]. split; [done|].
    unfold num; cbn [fold_left]. by rewrite N.pow_0_r, N.mod_1_r.
  - destruct (N.ltb_spec bits tobits) as [B|B].
    + injection E as <- <-. rewrite N.mod_small, N.div_small by done.
      split; [done|]. split; [by apply list.Forall_nil|]. split; [done|].
      unfold num; cbn [fold_left]. rewrite N.div_small; [done|]. apply N.mod_lt, pow_nz.
    + destruct (drain f tobits acc (bits - tobits)) as [o b'] eqn:D. injection E as <- <-.
      specialize (IH (bits - tobits) o b' ltac:(lia) D) as (I1 & I2 & I3 & I4).
      assert (bits = (bits - tobits) + 1 * tobits) as X by lia.
      split; [rewrite X, N.mod_add by lia; exact I1|].
      rewrite land_low. split; [|split].
      * apply list.Forall_cons. split; [apply N.mod_lt, pow_nz|done].
      * cbn [length]. rewrite X, N.div_add by lia. lia.
      * change (?x :: o) with ([x] ++ o). rewrite num_app. unfold num at 1. cbn [fold_left].
        rewrite N.mul_0_l, N.add_0_l, I4, I3, N.shiftr_div_pow2.
        assert (exists d, d = bits - tobits) as [d Hd] by eauto. rewrite <- Hd in *.
        replace (tobits * (d / tobits)) with (d - b').
        2: { pose proof (N.div_mod d tobits ltac:(lia)) as DM. rewrite <- I1 in DM.
             clear -DM. revert DM. generalize (tobits * (d / tobits)). lia. }
        assert (b' <= d) as Hb by (rewrite I1; apply N.mod_le; lia).
        rewrite <- div_mod_pow. replace (tobits + d) with bits by lia.
        pose proof (pow_nz b') as Z.
        assert (2 ^ d = 2 ^ (d - b') * 2 ^ b') as P
          by (rewrite <- N.pow_add_r; f_equal; lia).
        rewrite <- (mod_pow_le acc bits d) by lia.
        set (a := acc mod 2 ^ bits).
        transitivity ((2 ^ d * (a / 2 ^ d) + a mod 2 ^ d) / 2 ^ b').
        2: { by rewrite <- N.div_mod by apply pow_nz. }
        rewrite P at 3.
        replace (2 ^ (d - b') * 2 ^ b' * (a / 2 ^ d)) with (a / 2 ^ d * 2 ^ (d - b') * 2 ^ b') by lia.
        by rewrite N.div_add_l.
Qed.

(** What the loop has done for the digits [l] after digits with the number [n] and [bits]
    bits left. *)
Lemma convert_loop_spec f t l : 0 < f -> 0 < t -> forall acc bits n,
  digits f l -> bits < t -> acc mod 2 ^ bits = n mod 2 ^ bits ->
  forall out acc2 bits2, convert_loop f t acc bits l = (out, acc2, bits2) ->
  let n2 := n * 2 ^ (f * N.of_nat (length l)) + num f l in
  bits2 = (bits + f * N.of_nat (length l)) mod t /\
  N.of_nat (length out) = (bits + f * N.of_nat (length l)) / t /\
  digits t out /\
  n / 2 ^ bits * 2 ^ (t * N.of_nat (length out)) + num t out = n2 / 2 ^ bits2 /\
  acc2 mod 2 ^ bits2 = n2 mod 2 ^ bits2.
Proof.
  intros F T. induction l as [|v l IH]; intros acc bits n D B A out acc2 bits2; cbn [convert_loop].
  - intros [= <- <- <-]. cbn [length]. rewrite N.mul_0_r, N.add_0_r, N.pow_0_r.
    change (N.of_nat 0) with 0. rewrite N.mul_0_r, N.pow_0_r.
    unfold num; cbn [fold_left]. rewrite !N.mul_1_r, !N.add_0_r.
    rewrite N.mod_small, N.div_small by done. split_and!; try done. by apply list.Forall_nil.
  - apply list.Forall_cons in D as [Dv Dl].
    set (acc' := N.land _ _).
    destruct (drain _ t acc' (bits + f)) as [o b] eqn:E1.
    destruct (convert_loop f t acc' b l) as [[r a2] b2] eqn:E2.
    intros [= <- <- <-].
    apply drain_spec in E1 as (X1 & X2 & X3 & X4); [|done|lia].
    set (n1 := n * 2 ^ f + v).
    assert (acc' mod 2 ^ (bits + f) = n1 mod 2 ^ (bits + f)) as Y.
    { unfold acc'. rewrite land_low, mod_pow_le by lia.
      assert (N.lor (N.shiftl acc f) v = acc * 2 ^ f + v) as ->.
      { rewrite <- N.shiftl_mul_pow2.
        assert (N.land (N.shiftl acc f) v = 0) as Z;
          [|by rewrite N.add_nocarry_lxor, N.lxor_lor].
        apply N.bits_inj. intros i. rewrite N.land_spec, N.bits_0.
        destruct (N.lt_ge_cases i f) as [L|L]; [by rewrite N.shiftl_spec_low|].
        rewrite (proj1 (lt_pow_bits v f) Dv i L). apply andb_false_r. }
      unfold n1. rewrite (N.add_comm bits f), N.pow_add_r.
      rewrite !N.mod_mul_r by apply pow_nz.
      rewrite !(N.add_comm _ v), !N.mod_add, !N.div_add by apply pow_nz.
      rewrite (N.div_small v) by done. rewrite !N.add_0_l. by rewrite A. }
    assert (b <= bits + f) as Hb by (rewrite X1; apply N.mod_le; lia).
    destruct (IH acc' b n1 Dl ltac:(rewrite X1; apply N.mod_lt; lia)
      ltac:(rewrite <- (mod_pow_le acc' (bits + f) b), Y, mod_pow_le by done; done)
      r a2 b2 E2) as (I1 & I2 & I3 & I4 & I5).
    assert (n1 * 2 ^ (f * N.of_nat (length l)) + num f l =
            n * 2 ^ (f * N.of_nat (length (v :: l))) + num f (v :: l)) as N2.
    { change (v :: l) with ([v] ++ l). rewrite num_app. unfold num at 2. cbn [fold_left].
      rewrite app_length. cbn [length]. rewrite Nat2N.inj_add, N.mul_add_distr_l, N.pow_add_r.
      change (N.of_nat 1) with 1. rewrite N.mul_1_r. unfold n1. lia. }
    rewrite N2 in I4, I5. cbv zeta.
    pose proof (N.div_mod (bits + f) t ltac:(lia)) as DM. rewrite <- X1 in DM.
    cbn [length] in *. rewrite Nat2N.inj_succ in *.
    assert (bits + f * N.succ (N.of_nat (length l)) =
            b + f * N.of_nat (length l) + (bits + f) / t * t) as BB by lia.
    rewrite BB, N.mod_add, N.div_add by lia.
    split; [exact I1|]. split; [rewrite app_length; lia|].
    split; [apply Forall_app; by split|]. split; [|exact I5].
    rewrite <- I4, num_app, X4, Y, app_length, Nat2N.inj_add, N.mul_add_distr_l, N.pow_add_r, X3.
    rewrite N.mul_assoc, <- N.add_assoc || idtac.
    assert (n / 2 ^ bits * 2 ^ (t * ((bits + f) / t)) + n1 mod 2 ^ (bits + f) / 2 ^ b
            = n1 / 2 ^ b) as K.
    { assert (n / 2 ^ bits = n1 / 2 ^ (bits + f)) as ->.
      { unfold n1. rewrite (N.add_comm bits f), N.pow_add_r, <- N.div_div by apply pow_nz.
        rewrite N.div_add_l by apply pow_nz. rewrite (N.div_small v) by done. by rewrite N.add_0_r. }
      replace (t * ((bits + f) / t)) with (bits + f - b) by lia.
      rewrite (N.div_mod n1 (2 ^ (bits + f))) at 3 by apply pow_nz.
      replace (2 ^ (bits + f) * (n1 / 2 ^ (bits + f))) with
        (n1 / 2 ^ (bits + f) * 2 ^ (bits + f - b) * 2 ^ b).
      2: { rewrite <- N.mul_assoc, <- N.pow_add_r. replace (bits + f - b + b) with (bits + f) by lia. lia. }
      by rewrite N.div_add_l by apply pow_nz. }
    rewrite <- K. lia.
Qed.

Lemma convert_loop_num f t l out acc bits : 0 < f -> 0 < t -> digits f l ->
  convert_loop f t 0 0 l = (out, acc, bits) ->
  bits = (f * N.of_nat (length l)) mod t /\
  N.of_nat (length out) = (f * N.of_nat (length l)) / t /\
  digits t out /\ num t out = num f l / 2 ^ bits /\ acc mod 2 ^ bits = num f l mod 2 ^ bits.
Proof.
  intros F T D E.
  destruct (convert_loop_spec f t l F T 0 0 0 D T eq_refl out acc bits E) as (X1 & X2 & X3 & X4 & X5).
  rewrite N.add_0_l in X1, X2. rewrite N.pow_0_r, N.div_1_r, !N.mul_0_l, !N.add_0_l in X4.
  rewrite N.mul_0_l, N.add_0_l in X5. done.
Qed.

(** Without padding: the digits of the leading bits. *)
Lemma convert_down f t l out ok : 0 < f -> 0 < t -> digits f l ->
  convert_bits f t false l = (out, ok) ->
  N.of_nat (length out) = (f * N.of_nat (length l)) / t /\ digits t out /\
  num t out = num f l / 2 ^ ((f * N.of_nat (length l)) mod t).
Proof.
  intros F T D. unfold convert_bits. destruct (convert_loop f t 0 0 l) as [[o a] b] eqn:E.
  intros [= <- _]. apply convert_loop_num in E as (X1 & X2 & X3 & X4 & X5); [|done|done|done].
  rewrite <- X1. done.
Qed.

(** With padding: the number with zeros behind it. *)
Lemma convert_up f t l out ok : 0 < f -> 0 < t -> digits f l ->
  (f * N.of_nat (length l)) mod t <> 0 ->
  convert_bits f t true l = (out, ok) ->
  N.of_nat (length out) = (f * N.of_nat (length l)) / t + 1 /\ digits t out /\
  num t out = num f l * 2 ^ (t - (f * N.of_nat (length l)) mod t).
Proof.
  intros F T D R. unfold convert_bits. destruct (convert_loop f t 0 0 l) as [[o a] b] eqn:E.
  intros [= <- _]. apply convert_loop_num in E as (X1 & X2 & X3 & X4 & X5); [|done|done|done].
  rewrite <- X1 in *. destruct (N.eqb_spec b 0) as [|_]; [done|].
  assert (b < t) as Hb by (rewrite X1; apply N.mod_lt; lia).
  rewrite app_length, land_low. split; [cbn; lia|]. split.
  { apply Forall_app. split; [done|]. apply list.Forall_cons. split; [|by apply list.Forall_nil].
    apply N.mod_lt, pow_nz. }
  rewrite num_snoc, X4, N.shiftl_mul_pow2.
  replace (2 ^ t) with (2 ^ b * 2 ^ (t - b)) by (rewrite <- N.pow_add_r; f_equal; lia).
  rewrite N.mul_mod_distr_r, X5 by apply pow_nz.
  rewrite (N.div_mod (num f l) (2 ^ b)) at 3 by apply pow_nz. lia.
Qed.
