(** Proofs for property C98: the hash function is that of the standard. *)
From Coq Require Import NArith List Bool Lia.
From stdpp Require Import base option list.
From Verif Require Import Base CodecModel CodecProofs RandModel RandSpec RandProofs RandExamples ShaModel ShaSpec.
Import ListNotations.
Open Scope N_scope.

(** ** Words *)

Lemma Ch_eq x y z : Ch x y z = fCh x y z.
Proof.
  apply N.bits_inj. intros i. unfold Ch, fCh.
  rewrite !N.lxor_spec, N.ldiff_spec, !N.land_spec, N.lxor_spec.
  by destruct (N.testbit x i), (N.testbit y i), (N.testbit z i).
Qed.
Lemma Maj_eq x y z : Maj x y z = fMaj x y z.
Proof.
  apply N.bits_inj. intros i. unfold Maj, fMaj, xor3.
  rewrite !N.lxor_spec, !N.lor_spec, !N.land_spec, N.lor_spec.
  by destruct (N.testbit x i), (N.testbit y i), (N.testbit z i).
Qed.

Lemma add32_sum a b : add32 a b = sum [a; b].
Proof. unfold add32, sum. cbn [fold_right]. by rewrite N.add_0_r. Qed.
Lemma sum_comm a b : sum [a; b] = sum [b; a].
Proof. rewrite <- !add32_sum. unfold add32. by rewrite N.add_comm. Qed.
Lemma sum5 a b c d e : a +! b +! c +! (d +! e) = sum [a; b; c; d; e].
Proof.
  unfold add32, sum. cbn [fold_right].
  repeat first [rewrite N.add_mod_idemp_l by discriminate | rewrite N.add_mod_idemp_r by discriminate
               | rewrite <- N.add_assoc].
  f_equal. lia.
Qed.
Lemma sum4 a b c d : a +! (b +! c +! d) = sum [b; c; d; a].
Proof.
  unfold add32, sum. cbn [fold_right].
  rewrite N.add_mod_idemp_r by discriminate. rewrite (N.add_comm a), <- !N.add_assoc.
  rewrite N.add_mod_idemp_l by discriminate. f_equal. lia.
Qed.

(** ** Rounds *)

Definition vlist (v : vars) : list N := [va v; vb v; vc v; vd v; ve v; vf v; vg v; vh v].

Lemma Round_round a b c d e f g h k w d' h' : Round a b c d e f g h (k +! w) = (d', h') ->
  round (Vars a b c d e f g h) (k, w) = Vars h' a b c d' e f g.
Proof.
  unfold Round, round. cbn [va vb vc vd ve vf vg vh]. intros [= <- <-].
  rewrite Ch_eq, Maj_eq, (sum5 h (Sigma1 e) (fCh e f g) k w), !add32_sum. reflexivity.
Qed.

Lemma eight_rounds k0 k1 k2 k3 k4 k5 k6 k7 w0 w1 w2 w3 w4 w5 w6 w7 v :
  eight (k0 +! w0) (k1 +! w1) (k2 +! w2) (k3 +! w3) (k4 +! w4) (k5 +! w5) (k6 +! w6) (k7 +! w7) (vlist v) =
  vlist (fold_left round [(k0, w0); (k1, w1); (k2, w2); (k3, w3); (k4, w4); (k5, w5); (k6, w6); (k7, w7)] v).
Proof.
  destruct v as [a b c d e f g h]. unfold vlist at 1. cbn [va vb vc vd ve vf vg vh]. unfold eight.
  cbn [fold_left].
  do 8 (match goal with
        | |- context [Round ?a ?b ?c ?d ?e ?f ?g ?h (?k +! ?w)] =>
            let E := fresh in destruct (Round a b c d e f g h (k +! w)) eqn:E;
            rewrite (Round_round _ _ _ _ _ _ _ _ _ _ _ _ E); clear E
        end).
  reflexivity.
Qed.

Lemma sixteen_rounds k w v : length k = 16%nat -> length w = 16%nat ->
  sixteen k w (vlist v) = vlist (fold_left round (combine k w) v).
Proof.
  intros Hk Hw.
  do 16 (destruct k as [|? k]; [discriminate|]). destruct k; [|discriminate].
  do 16 (destruct w as [|? w]; [discriminate|]). destruct w; [|discriminate].
  unfold sixteen. cbn [nth]. rewrite !eight_rounds. reflexivity.
Qed.

(** ** The schedule *)

Definition nxt (w : list N) : N := nth 0 w 0 +! (sigma1 (nth 14 w 0) +! nth 9 w 0 +! sigma0 (nth 1 w 0)).
Fixpoint gen (n : nat) (w : list N) : list N :=
  match n with
  | O => []
  | S n' => nxt w :: gen n' (tl w ++ [nxt w])
  end.

Lemma gen_expand w : length w = 16%nat -> gen 16 w = expand w.
Proof.
  intros Hw. do 16 (destruct w as [|? w]; [discriminate|]). destruct w; [|discriminate].
  cbv [gen nxt nth tl app expand]. reflexivity.
Qed.

Lemma expand_length w : length (expand w) = length w.
Proof.
  do 16 (destruct w as [|? w]; [done|]). destruct w; done.
Qed.

Lemma schedule_length m n : length (schedule m n) = (length m + n)%nat.
Proof. induction n; cbn [schedule]; [lia|]. rewrite app_length, IHn. cbn. lia. Qed.

Lemma nth_shift {A} (P w : list A) i k d : i = (length P + k)%nat -> nth i (P ++ w) d = nth k w d.
Proof. intros ->. rewrite app_nth2_plus. done. Qed.

Lemma schedule_step m n P w : length m = 16%nat -> schedule m n = P ++ w -> length w = 16%nat ->
  schedule m (S n) = P ++ w ++ [nxt w].
Proof.
  intros Hm E Hw. pose proof (schedule_length m n) as L. rewrite E, app_length in L.
  cbn [schedule]. rewrite E. rewrite <- app_assoc. do 2 f_equal.
  rewrite (nth_shift P w _ 14), (nth_shift P w _ 9), (nth_shift P w _ 1), (nth_shift P w _ 0) by lia.
  unfold nxt. by rewrite sum4.
Qed.

Lemma schedule_gen m : length m = 16%nat -> forall k n P w, schedule m n = P ++ w -> length w = 16%nat ->
  schedule m (k + n) = P ++ w ++ gen k w.
Proof.
  intros Hm. induction k as [|k IH]; intros n P w E Hw.
  - cbn [gen]. by rewrite app_nil_r.
  - replace (S k + n)%nat with (k + S n)%nat by lia. cbn [gen].
    destruct w as [|x w]; [discriminate|]. cbn [tl].
    rewrite (IH (S n) (P ++ [x]) (w ++ [nxt (x :: w)])).
    + rewrite <- !app_assoc. done.
    + rewrite (schedule_step m n P (x :: w)) by done. rewrite <- !app_assoc. done.
    + rewrite app_length. cbn in *. lia.
Qed.

Lemma schedule_expand m n P w : length m = 16%nat -> schedule m n = P ++ w -> length w = 16%nat ->
  schedule m (16 + n) = (P ++ w) ++ expand w.
Proof. intros. rewrite (schedule_gen m) with (P := P) (w := w) by done. by rewrite gen_expand, app_assoc. Qed.

Lemma schedule_48 m : length m = 16%nat ->
  schedule m 48 = m ++ expand m ++ expand (expand m) ++ expand (expand (expand m)).
Proof.
  intros H. pose proof (schedule_expand m 0 [] m H eq_refl H) as H1.
  pose proof (schedule_expand m 16 _ _ H H1 ltac:(by rewrite expand_length)) as H2.
  pose proof (schedule_expand m 32 _ _ H H2 ltac:(by rewrite !expand_length)) as H3.
  cbn [Nat.add] in H3. rewrite H3. by rewrite <- !app_assoc.
Qed.

(** ** One block *)

Lemma combine_app' {A B} (a : list A) (b : list B) a' b' : length a = length b ->
  combine (a ++ a') (b ++ b') = combine a b ++ combine a' b'.
Proof. revert b. induction a; intros [|y b] H; try discriminate; [done|]. cbn in *. by rewrite IHa by lia. Qed.

Lemma consts_K : K = firstn 16 consts ++ firstn 16 (skipn 16 consts) ++ firstn 16 (skipn 32 consts) ++ firstn 16 (skipn 48 consts).
Proof. vm_compute. reflexivity. Qed.
Lemma initial_H0 : initial = H0.
Proof. vm_compute. reflexivity. Qed.

Lemma read_words b : read b = block_words b.
Proof. reflexivity. Qed.

Lemma transform_compress s b : length s = 8%nat -> transform s b = compress s (block_words b).
Proof.
  intros Hs. rewrite <- read_words. unfold transform, compress.
  assert (Hr : length (read b) = 16%nat) by (unfold read; by rewrite map_length, seq_length).
  rewrite (schedule_48 _ Hr), consts_K. set (w := read b) in *. clearbody w.
  destruct s as [|a [|b1 [|c [|d [|e [|f [|g [|h [|]]]]]]]]]; try discriminate. cbn [nth].
  change [a; b1; c; d; e; f; g; h] with (vlist (Vars a b1 c d e f g h)).
  rewrite !combine_app', !fold_left_app by (by rewrite ?expand_length, Hr).
  rewrite !sixteen_rounds by (by rewrite ?expand_length).
  generalize (fold_left round (combine (take 16 (drop 48 consts)) (expand (expand (expand w))))
    (fold_left round (combine (take 16 (drop 32 consts)) (expand (expand w)))
      (fold_left round (combine (take 16 (drop 16 consts)) (expand w))
         (fold_left round (combine (take 16 consts) w) (Vars a b1 c d e f g h))))).
  intros v. unfold vlist. cbn [va vb vc vd ve vf vg vh zip_with].
  rewrite !add32_sum. repeat (apply f_equal2; [apply sum_comm|]). reflexivity.
Qed.

(** ** Writing in pieces *)

Notation write := (RandModel.write transform).

Definition sane (c : sha) : Prop :=
  length (sh_buf c) = N.to_nat (sh_bytes c mod 64) /\ sh_bytes c < 2 ^ 64.

Lemma sane_lt c : sane c -> (length (sh_buf c) < 64)%nat.
Proof. intros [-> _]. pose proof (N.mod_lt (sh_bytes c) 64). lia. Qed.

Lemma wrap_small a : a < 2 ^ 64 -> wrap64 a = a.
Proof. intros. by apply N.mod_small. Qed.
Lemma wrap_lt a : wrap64 a < 2 ^ 64.
Proof. by apply N.mod_lt. Qed.

(** The last two cases of Write, when the buffer is not in the way. *)
Lemma tail_cases (c : sha) d : sh_bytes c < 2 ^ 64 ->
  (let blocks := (length d / 64)%nat in
   let data2 := if (64 <=? length d)%nat then skipn (64 * blocks) d else d in
   let c2 := if (64 <=? length d)%nat then
               Sha (feed transform blocks (sh_s c) d) (sh_buf c) (wrap64 (sh_bytes c + 64 * N.of_nat blocks))
             else c in
   if (0 <? length data2)%nat then
     Sha (sh_s c2) (sh_buf c2 ++ data2) (wrap64 (sh_bytes c2 + N.of_nat (length data2)))
   else c2) =
  Sha (feed transform (length d / 64) (sh_s c) d) (sh_buf c ++ skipn (64 * (length d / 64)) d)
      (wrap64 (sh_bytes c + N.of_nat (length d))).
Proof.
  intros B. cbv zeta.
  assert (E2 : (if (64 <=? length d)%nat then skipn (64 * (length d / 64)) d else d) =
               skipn (64 * (length d / 64)) d).
  { destruct (Nat.leb_spec 64 (length d)); [done|]. by rewrite Nat.div_small. }
  assert (E3 : (if (64 <=? length d)%nat
                then Sha (feed transform (length d / 64) (sh_s c) d) (sh_buf c) (wrap64 (sh_bytes c + 64 * N.of_nat (length d / 64)))
                else c) =
               Sha (feed transform (length d / 64) (sh_s c) d) (sh_buf c) (wrap64 (sh_bytes c + 64 * N.of_nat (length d / 64)))).
  { destruct (Nat.leb_spec 64 (length d)); [done|]. rewrite Nat.div_small by done. cbn [feed].
    change (64 * N.of_nat 0) with 0. rewrite N.add_0_r, wrap_small by done. by destruct c. }
  rewrite E2, E3. cbn [sh_s sh_buf sh_bytes]. rewrite wrap_add.
  pose proof (Nat.div_mod (length d) 64 ltac:(lia)) as DM.
  pose proof (skipn_length (64 * (length d / 64)) d) as SL.
  destruct (Nat.ltb_spec 0 (length (skipn (64 * (length d / 64)) d))) as [H|H].
  - f_equal. f_equal. lia.
  - assert (E : skipn (64 * (length d / 64)) d = []) by (destruct (skipn (64 * (length d / 64)) d); [done|cbn in H; lia]).
    rewrite E, app_nil_r. f_equal. f_equal. lia.
Qed.

Lemma Write_write c d : sane c -> Write c d = write c d.
Proof.
  intros S. pose proof (sane_lt c S) as Lt. destruct S as [Sb Bd].
  unfold Write. cbv zeta. rewrite <- Sb.
  destruct (Nat.eqb_spec (length (sh_buf c)) 0) as [E0|N0]; cbn [negb andb].
  - pose proof (tail_cases c d Bd) as T. cbv zeta in T. rewrite T. unfold RandModel.write.
    assert (E : sh_buf c = []) by (by destruct (sh_buf c)). rewrite E. done.
  - destruct (Nat.leb_spec 64 (length (sh_buf c) + length d)) as [F|F].
    + set (b := sh_buf c) in *. set (d1 := skipn (64 - length b) d).
      set (c1 := Sha _ [] _).
      pose proof (tail_cases c1 d1 (wrap_lt _)) as T. cbv zeta in T. rewrite T. clear T.
      assert (Ld : length d1 = (length b + length d - 64)%nat) by (unfold d1; rewrite skipn_length; lia).
      unfold RandModel.write. fold b. rewrite app_length.
      assert (Q : ((length b + length d) / 64 = S (length d1 / 64))%nat).
      { replace (length b + length d)%nat with (length d1 + 1 * 64)%nat by lia. rewrite Nat.div_add by lia. lia. }
      rewrite Q. cbn [feed].
      assert (F1 : firstn 64 (b ++ d) = b ++ firstn (64 - length b) d).
      { rewrite firstn_app. by rewrite firstn_all2 by lia. }
      assert (F2 : skipn 64 (b ++ d) = d1).
      { rewrite skipn_app. by rewrite skipn_all2 by lia. }
      rewrite F1, F2. unfold c1 at 1 2 3. cbn [sh_s sh_buf sh_bytes app]. f_equal.
      * rewrite <- F2, drop_drop. f_equal. lia.
      * rewrite wrap_add. f_equal. lia.
    + pose proof (tail_cases c d Bd) as T. cbv zeta in T. rewrite T. unfold RandModel.write.
      rewrite app_length, !Nat.div_small by lia. done.
Qed.

(** What the hasher holds after the bytes [m]. *)
Definition holds (m : bytes) : sha :=
  Sha (feed transform (length m / 64) initial m) (skipn (64 * (length m / 64)) m) (wrap64 (N.of_nat (length m))).

Lemma feed_app q n s (m d : bytes) : (64 * q <= length m)%nat ->
  feed transform (q + n) s (m ++ d) = feed transform n (feed transform q s m) (skipn (64 * q) m ++ d).
Proof.
  revert s m. induction q as [|q IH]; intros s m H; [done|].
  cbn [Nat.add feed]. rewrite firstn_app, skipn_app.
  replace (64 - length m)%nat with 0%nat by lia. rewrite app_nil_r. cbn [drop].
  rewrite IH by (rewrite skipn_length; lia). rewrite drop_drop. do 3 f_equal. lia.
Qed.

Lemma holds_sane m : sane (holds m).
Proof.
  split; [|apply wrap_lt]. cbn [holds sh_buf sh_bytes]. rewrite wrap_mod64, skipn_length.
  change 64 with (N.of_nat 64). rewrite <- Nat2N.inj_mod, Nat2N.id.
  pose proof (Nat.div_mod (length m) 64 ltac:(lia)). lia.
Qed.

Lemma write_holds m d : write (holds m) d = holds (m ++ d).
Proof.
  unfold RandModel.write, holds. cbn [sh_s sh_buf sh_bytes]. rewrite !app_length, skipn_length.
  set (q := (length m / 64)%nat).
  pose proof (Nat.div_mod (length m) 64 ltac:(lia)) as DM. fold q in DM.
  set (n := ((length m - 64 * q + length d) / 64)%nat).
  assert (Q : ((length m + length d) / 64 = q + n)%nat).
  { replace (length m + length d)%nat with ((length m - 64 * q + length d) + q * 64)%nat by lia.
    rewrite Nat.div_add by lia. unfold n. lia. }
  rewrite Q. rewrite feed_app by lia. rewrite wrap_add. f_equal; [|f_equal; lia].
  replace (64 * (q + n))%nat with (64 * q + 64 * n)%nat by lia.
  rewrite <- drop_drop. rewrite (skipn_app (64 * q)).
  replace (64 * q - length m)%nat with 0%nat by lia. done.
Qed.

Lemma fresh_holds : fresh = holds [].
Proof. reflexivity. Qed.

Lemma Write_holds m d : Write (holds m) d = holds (m ++ d).
Proof. rewrite Write_write by apply holds_sane. apply write_holds. Qed.

Lemma Writes_holds ps : forall m, fold_left Write ps (holds m) = holds (m ++ concat ps).
Proof.
  induction ps as [|p ps IH]; intros m; cbn [fold_left concat]; [by rewrite app_nil_r|].
  by rewrite Write_holds, IH, app_assoc.
Qed.

(** ** The end *)

Lemma Finalize_holds m p : padded m p ->
  Finalize (holds m) = (holds p, digest (feed transform (length p / 64) initial p)).
Proof.
  intros (k & Hk & Hmod & ->). unfold Finalize. cbv zeta.
  assert (Ek : N.to_nat ((119 - sh_bytes (holds m) mod 64) mod 64) = k).
  { cbn [holds sh_bytes]. rewrite wrap_mod64. change 64 with (N.of_nat 64).
    rewrite <- Nat2N.inj_mod. change 119 with (N.of_nat 119). rewrite <- Nat2N.inj_sub, <- Nat2N.inj_mod, Nat2N.id.
    assert (R : ((length m mod 64 + 1 + k) mod 64 = 56)%nat).
    { etransitivity; [|exact Hmod]. rewrite <- !Nat.add_assoc. by rewrite Nat.add_mod_idemp_l by lia. }
    pose proof (Nat.mod_upper_bound (length m) 64 ltac:(lia)) as U. revert R U.
    generalize (length m mod 64)%nat. intros r R U.
    destruct (decide (r + 1 + k < 64)%nat).
    - rewrite Nat.mod_small in R by lia. replace (119 - r)%nat with (k + 1 * 64)%nat by lia.
      rewrite Nat.mod_add by lia. by apply Nat.mod_small.
    - replace (r + 1 + k)%nat with ((r + 1 + k - 64) + 1 * 64)%nat in R by lia. rewrite Nat.mod_add in R by lia.
      rewrite Nat.mod_small in R by lia. replace (119 - r)%nat with k by lia. by apply Nat.mod_small. }
  rewrite Ek. rewrite !Write_holds. cbn [holds sh_bytes]. rewrite wrap_mul, be8_wrap.
  rewrite (N.mul_comm _ 8). rewrite <- app_assoc. cbn [app]. done.
Qed.

Lemma feed_words n : forall s p, words s -> words (feed transform n s p).
Proof. induction n; intros s p H; cbn; [done|]. apply IHn. by apply sha_proper. Qed.

Lemma feed_compress n : forall s p, words s ->
  feed transform n s p = fold_left compress (blocks n p) s.
Proof.
  induction n; intros s p H; cbn [feed blocks fold_left]; [done|].
  rewrite <- transform_compress by apply H. apply IHn. by apply sha_proper.
Qed.

Lemma hash_pieces ps p : padded (concat ps) p ->
  snd (Finalize (fold_left Write ps fresh)) = SHA256 p.
Proof.
  intros H. rewrite fresh_holds, Writes_holds. cbn [app]. rewrite (Finalize_holds _ _ H). cbn [snd].
  unfold SHA256, digest. rewrite <- initial_H0. by rewrite feed_compress by apply sha_proper.
Qed.

Lemma hash_standard d p : padded d p -> hash_data d = SHA256 p.
Proof.
  intros H. pose proof (hash_pieces [d] p) as E. cbn [concat fold_left] in E. rewrite app_nil_r in E.
  by apply E.
Qed.

Lemma padded_exists m : exists p, padded m p.
Proof.
  eexists. exists ((119 - length m mod 64) mod 64)%nat.
  split; [apply Nat.mod_upper_bound; lia|]. split; [|reflexivity].
  pose proof (Nat.mod_upper_bound (length m) 64 ltac:(lia)) as U.
  rewrite <- Nat.add_assoc, Nat.add_mod by lia. revert U. generalize (length m mod 64)%nat. intros r U.
  destruct (decide (r < 56)%nat).
  - replace (119 - r)%nat with ((55 - r) + 1 * 64)%nat by lia. rewrite Nat.mod_add by lia.
    rewrite (Nat.mod_small (55 - r)) by lia. rewrite (Nat.mod_small (1 + (55 - r))) by lia.
    replace (r + (1 + (55 - r)))%nat with 56%nat by lia. done.
  - rewrite (Nat.mod_small (119 - r)) by lia.
    destruct (decide (r = 56)%nat) as [->|]; [done|].
    rewrite (Nat.mod_small (1 + (119 - r))) by lia.
    replace (r + (1 + (119 - r)))%nat with (56 + 1 * 64)%nat by lia. by rewrite Nat.mod_add by lia.
Qed.

Lemma padded_unique m p q : padded m p -> padded m q -> p = q.
Proof.
  intros (k & Hk & Hm & ->) (j & Hj & Hm' & ->). assert (k = j) as ->; [|done].
  pose proof (Nat.div_mod (length m + 1 + k) 64 ltac:(lia)). pose proof (Nat.div_mod (length m + 1 + j) 64 ltac:(lia)).
  lia.
Qed.
