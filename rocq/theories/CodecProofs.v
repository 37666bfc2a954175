From Coq Require Import NArith List Bool Lia ZifyBool ZifyNat ZifyN.
From stdpp Require Import base decidable list.
From Verif Require Import Base CodecModel.
Import ListNotations.
Open Scope N_scope.

Ltac Zify.zify_post_hook ::= Z.div_mod_to_equations.

Arguments rd : simpl never.

(** * Numbers and bytes *)

Lemma le_bytes_length n v : length (le_bytes n v) = n.
Proof. revert v; induction n; intros; simpl; auto. Qed.

Lemma pow256_S n : 256 ^ N.of_nat (S n) = 256 * 256 ^ N.of_nat n.
Proof. rewrite Nat2N.inj_succ, N.pow_succ_r'; lia. Qed.

Lemma le_value_bytes n v : v < 256 ^ N.of_nat n -> le_value (le_bytes n v) = v.
Proof.
  revert v; induction n as [|n IH]; intros v Hv.
  - simpl in *. change (256 ^ 0) with 1 in Hv. simpl. lia.
  - rewrite pow256_S in Hv. simpl. rewrite IH; [|lia]. lia.
Qed.

Lemma byte_mod b x : b < 256 -> (b + 256 * x) mod 256 = b.
Proof. intros. rewrite N.mul_comm, N.mod_add by lia. now apply N.mod_small. Qed.

Lemma byte_div b x : b < 256 -> (b + 256 * x) / 256 = x.
Proof. intros. rewrite N.mul_comm, N.div_add by lia. rewrite N.div_small; lia. Qed.

Lemma le_bytes_value bs : Forall is_byte bs -> le_bytes (length bs) (le_value bs) = bs.
Proof.
  induction bs as [|b r IH]; intros H; [reflexivity|].
  inversion H; subst. unfold is_byte in *. simpl. f_equal; [now apply byte_mod|].
  rewrite byte_div by assumption. now apply IH.
Qed.

Lemma le_value_bound bs :
  Forall is_byte bs -> le_value bs < 256 ^ N.of_nat (length bs).
Proof.
  induction bs as [|b r IH]; intros H.
  - simpl. change (256 ^ 0) with 1. lia.
  - inversion H; subst. unfold is_byte in *. specialize (IH ltac:(assumption)).
    cbn [le_value length]. rewrite pow256_S. lia.
Qed.

Lemma le_bytes_is_byte n v : Forall is_byte (le_bytes n v).
Proof.
  revert v; induction n; intros; simpl; constructor; auto.
  unfold is_byte. lia.
Qed.

Lemma be_bytes_length n v : length (be_bytes n v) = n.
Proof. unfold be_bytes. rewrite rev_length. apply le_bytes_length. Qed.

Lemma be_value_bytes n v : v < 256 ^ N.of_nat n -> be_value (be_bytes n v) = v.
Proof.
  intros. unfold be_value, be_bytes. rewrite rev_involutive.
  now apply le_value_bytes.
Qed.

Lemma be_bytes_is_byte n v : Forall is_byte (be_bytes n v).
Proof. unfold be_bytes. apply Forall_rev, le_bytes_is_byte. Qed.

Lemma len_app {A} (a b : list A) : len (a ++ b) = len a + len b.
Proof. unfold len. rewrite app_length. lia. Qed.

Lemma len_nil {A} : len (@nil A) = 0.
Proof. reflexivity. Qed.

Lemma len_cons {A} (x : A) l : len (x :: l) = 1 + len l.
Proof. unfold len. simpl length. lia. Qed.

Lemma len_repeat {A} (x : A) n : len (repeat x n) = N.of_nat n.
Proof. unfold len. now rewrite repeat_length. Qed.

(** * Laws of a codec *)

Record lawful {A} (c : codec A) : Prop := {
  l_sticky : forall b a s, dec c (Dst b false) = Ok a s -> valid s = false;
  l_local : forall b a r, dec c (Dst b true) = Ok a (Dst r true) ->
    (exists p, b = p ++ r) /\
    forall q, dec c (Dst (b ++ q) true) = Ok a (Dst (r ++ q) true);
  l_rt : forall a q, dom c a -> dec c (Dst (enc c a ++ q) true) = Ok a (Dst q true);
  l_fuel : forall s, dec c s <> NoFuel;
}.

(** The decoder consumes at least one byte. *)
Definition consuming {A} (c : codec A) : Prop :=
  forall b a r, dec c (Dst b true) = Ok a (Dst r true) ->
  (length r < length b)%nat.

Lemma rd_ok b q : rd (len b) (Dst (b ++ q) true) = (Some b, Dst q true).
Proof.
  unfold rd; simpl. rewrite len_app.
  destruct (len b + len q <? len b) eqn:E; [lia|].
  unfold len. rewrite Nat2N.id, firstn_app, firstn_all, Nat.sub_diag; simpl.
  rewrite app_nil_r, skipn_app, skipn_all, Nat.sub_diag; reflexivity.
Qed.

Lemma rd_inv n b v r s : rd n (Dst b v) = (r, s) ->
  match r with
  | Some x => b = x ++ rem s /\ len x = n /\ valid s = v
  | None => len b < n /\ s = Dst b false
  end.
Proof.
  unfold rd; simpl. destruct (len b <? n) eqn:E; intros H; inversion H; subst; simpl.
  - split; [lia|reflexivity].
  - split; [symmetry; apply firstn_skipn|].
    split; [|reflexivity]. unfold len in *. rewrite firstn_length. lia.
Qed.

Lemma concat_single {A} (l : list A) : concat [l] = l.
Proof. simpl. apply app_nil_r. Qed.

Lemma lawful_bytes {A} (n : nat) (w : A -> bytes) (d : bytes -> A) (z : A)
    (P : A -> Prop) :
  (forall a, P a -> length (w a) = n /\ d (w a) = a) ->
  lawful {| wr a := [w a];
            dec s := match rd (N.of_nat n) s with
                     | (Some b, s') => Ok (d b) s'
                     | (None, s') => Ok z s'
                     end;
            dom := P |}.
Proof.
  intros Hw. split; simpl.
  - intros b a s. destruct (rd _ _) as [o s'] eqn:E. apply rd_inv in E.
    destruct o; intros H; inversion H; subst; [tauto|].
    destruct E as [_ ->]; reflexivity.
  - intros b a r. destruct (rd _ _) as [o s'] eqn:E. apply rd_inv in E.
    destruct o; intros H; inversion H; subst.
    + simpl in E. destruct E as (-> & Hl & _). split; [eauto|]. intros q.
      rewrite <- app_assoc, <- Hl, rd_ok. reflexivity.
    + destruct E as [_ E]; inversion E.
  - intros a q Ha. unfold enc; simpl. rewrite app_nil_r.
    destruct (Hw a Ha) as [Hl Hd].
    replace (N.of_nat n) with (len (w a)) by (unfold len; lia).
    rewrite rd_ok, Hd. reflexivity.
  - intros s. destruct (rd _ _) as [[?|] ?]; discriminate.
Qed.

Lemma consuming_bytes {A} (n : nat) (w : A -> bytes) (d : bytes -> A) (z : A) P :
  (0 < n)%nat ->
  consuming {| wr a := [w a];
            dec s := match rd (N.of_nat n) s with
                     | (Some b, s') => Ok (d b) s'
                     | (None, s') => Ok z s'
                     end;
            dom := P |}.
Proof.
  intros Hn b a r. simpl. destruct (rd _ _) as [o s'] eqn:E. apply rd_inv in E.
  destruct o; intros H; inversion H; subst.
  - simpl in E. destruct E as (-> & Hl & _). rewrite app_length.
    unfold len in Hl. lia.
  - destruct E as [_ E]; inversion E.
Qed.

Lemma lawful_uint n : lawful (c_uint n).
Proof.
  apply lawful_bytes. intros a Ha. split; [apply le_bytes_length|].
  now apply le_value_bytes.
Qed.

Lemma lawful_array n : lawful (c_array n).
Proof.
  apply lawful_bytes. intros a Ha. split; [apply be_bytes_length|].
  now apply be_value_bytes.
Qed.

Lemma consuming_uint n : (0 < n)%nat -> consuming (c_uint n).
Proof. intros. now apply consuming_bytes. Qed.

Lemma consuming_array n : (0 < n)%nat -> consuming (c_array n).
Proof. intros. now apply consuming_bytes. Qed.

Lemma lawful_u64 : lawful c_u64. Proof. apply lawful_uint. Qed.
Lemma lawful_u8 : lawful c_u8. Proof. apply lawful_uint. Qed.
Lemma lawful_u32 : lawful c_u32. Proof. apply lawful_uint. Qed.
Lemma lawful_hash : lawful c_hash. Proof. apply lawful_array. Qed.
Lemma lawful_sig : lawful c_sig. Proof. apply lawful_array. Qed.
Lemma consuming_u64 : consuming c_u64. Proof. apply consuming_uint; lia. Qed.
Lemma consuming_u8 : consuming c_u8. Proof. apply consuming_uint; lia. Qed.
Lemma consuming_hash : consuming c_hash. Proof. apply consuming_array; lia. Qed.

(** Readings of a [bind]. *)
Lemma bind_ok {A B} (r : res A) (k : A -> dst -> res B) b s :
  bind r k = Ok b s -> exists a s1, r = Ok a s1 /\ k a s1 = Ok b s.
Proof. destruct r; simpl; intros; try discriminate; eauto. Qed.

Lemma bind_fuel {A B} (r : res A) (k : A -> dst -> res B) :
  r <> NoFuel -> (forall a s, k a s <> NoFuel) -> bind r k <> NoFuel.
Proof. destruct r; simpl; intros; auto; congruence. Qed.

Lemma lawful_bool : lawful c_bool.
Proof.
  split; simpl.
  - intros b a s. destruct (rd _ _) as [o s'] eqn:E. apply rd_inv in E.
    destruct o as [[|x [|y o]]|]; intros H; inversion H; subst; try tauto.
    destruct E as [_ ->]; reflexivity.
  - intros b a r. destruct (rd _ _) as [o s'] eqn:E. apply rd_inv in E.
    destruct o as [[|x [|y o]]|]; intros H; inversion H; subst; simpl in E.
    + destruct E as (_ & Hl & _). unfold len in Hl; simpl in Hl; lia.
    + destruct E as (-> & Hl & _). split; [exists [x]; reflexivity|].
      intros q. pose proof (rd_ok [x] (r ++ q)) as R. simpl in R.
      change (len [x]) with 1 in R. simpl. rewrite R. reflexivity.
    + destruct E as (_ & Hl & _). unfold len in Hl; simpl in Hl; lia.
    + destruct E as [_ E]; inversion E.
  - intros a q _. unfold enc. simpl concat.
    pose proof (rd_ok [if a then 1 else 0] q) as R.
    change (len [if a then 1 else 0]) with 1 in R. simpl in *. rewrite R.
    destruct a; reflexivity.
  - intros s. destruct (rd _ _) as [[[|? [|? ?]]|] ?]; discriminate.
Qed.

Lemma consuming_bool : consuming c_bool.
Proof.
  intros b a r. simpl. destruct (rd _ _) as [o s'] eqn:E. apply rd_inv in E.
  destruct o as [[|x [|y o]]|]; intros H; inversion H; subst; simpl in E.
  - destruct E as (_ & Hl & _). unfold len in Hl; simpl in Hl; lia.
  - destruct E as (-> & Hl & _). simpl. lia.
  - destruct E as (_ & Hl & _). unfold len in Hl; simpl in Hl; lia.
  - destruct E as [_ E]; inversion E.
Qed.

(** If the final state is valid, every intermediate state was. *)
Lemma l_valid {A} (c : codec A) b v a r :
  lawful c -> dec c (Dst b v) = Ok a (Dst r true) -> v = true.
Proof.
  intros L H. destruct v; [reflexivity|]. apply l_sticky in H; auto.
Qed.

Lemma u64_dom_len {A} (l : list A) : len l < two64 -> dom c_u64 (len l).
Proof. simpl. unfold two64. change (256 ^ N.of_nat 8) with two64. unfold two64. lia. Qed.

Lemma enc_app {A} (c : codec A) (l1 l2 : writes) : concat (l1 ++ l2) = concat l1 ++ concat l2.
Proof. apply concat_app. Qed.

Lemma lawful_buffer : lawful c_buffer.
Proof.
  split.
  - intros b a s. simpl dec. intros H. apply bind_ok in H as (sz & s1 & H1 & H2).
    change (dec c_u64 (Dst b false) = Ok sz s1) in H1.
    pose proof (l_sticky _ lawful_u64 _ _ _ H1) as V.
    destruct (max_alloc <? sz); [discriminate|].
    destruct s1 as [b1 v1]. simpl in V; subst.
    destruct (rd sz _) as [o s2] eqn:E. apply rd_inv in E.
    destruct o; inversion H2; subst; [tauto|destruct E as [_ ->]; reflexivity].
  - intros b a r. unfold c_buffer; cbn [dec]. intros H.
    apply bind_ok in H as (sz & [b1 v1] & H1 & H2).
    destruct (max_alloc <? sz) eqn:Hm; [discriminate|].
    destruct (rd sz _) as [o s2] eqn:E. apply rd_inv in E.
    destruct o; inversion H2; subst; simpl in E.
    + destruct E as (-> & Hl & <-).
      destruct (l_local _ lawful_u64 _ _ _ H1) as [[p ->] Q].
      split; [exists (p ++ a); now rewrite app_assoc|]. intros q.
      rewrite Q. cbn [bind]. rewrite Hm, <- app_assoc, <- Hl, rd_ok. reflexivity.
    + destruct E as [_ E]; inversion E.
  - intros a q [Ha Hb]. unfold enc, c_buffer; cbn [wr dec concat].
    rewrite app_nil_r, <- app_assoc.
    pose proof (l_rt _ lawful_u64 (len a) (a ++ q)) as R.
    unfold enc in R; cbn [wr c_u64 c_uint concat] in R. rewrite app_nil_r in R.
    rewrite R; cycle 1.
    { apply u64_dom_len. unfold max_alloc in Ha. unfold two64. lia. }
    cbn [bind]. destruct (max_alloc <? len a) eqn:E; [lia|].
    rewrite rd_ok. reflexivity.
  - intros s. unfold c_buffer; cbn [dec]. apply bind_fuel; [apply lawful_u64|].
    intros a s1. destruct (_ <? _); [discriminate|].
    destruct (rd _ _) as [[?|] ?]; discriminate.
Qed.

Lemma consuming_buffer : consuming c_buffer.
Proof.
  intros b a r. unfold c_buffer; cbn [dec]. intros H.
  apply bind_ok in H as (sz & [b1 v1] & H1 & H2).
  destruct (max_alloc <? sz) eqn:Hm; [discriminate|].
  destruct (rd sz _) as [o s2] eqn:E. apply rd_inv in E.
  destruct o; inversion H2; subst; simpl in E.
  - destruct E as (-> & Hl & <-). apply consuming_u64 in H1.
    rewrite app_length in H1. lia.
  - destruct E as [_ E]; inversion E.
Qed.

Lemma lawful_option {A} (c : codec A) : lawful c -> lawful (c_option c).
Proof.
  intros L. split.
  - intros b a s. cbn [dec c_option]. intros H.
    apply bind_ok in H as (h & s1 & H1 & H2).
    pose proof (l_sticky _ lawful_bool _ _ _ H1) as V. rewrite V in H2.
    simpl in H2. congruence.
  - intros b a r. cbn [dec c_option]. intros H.
    apply bind_ok in H as (h & [b1 v1] & H1 & H2). simpl in H2.
    destruct v1; [|simpl in H2; congruence]. simpl in H2.
    destruct (l_local _ lawful_bool _ _ _ H1) as [[p ->] Q].
    destruct h.
    + apply bind_ok in H2 as (x & [b2 v2] & H3 & H4).
      simpl in H4. destruct v2; inversion H4; subst.
      destruct (l_local _ L _ _ _ H3) as [[p2 ->] Q2].
      split; [exists (p ++ p2); now rewrite app_assoc|].
      intros q. rewrite Q. cbn [bind valid negb]. rewrite Q2. reflexivity.
    + inversion H2; subst. split; [eauto|]. intros q. rewrite Q. reflexivity.
  - intros a q Ha. destruct a as [a|]; unfold enc; cbn [wr c_option dec].
    + rewrite concat_app, <- app_assoc.
      pose proof (l_rt _ lawful_bool true (concat (wr c a) ++ q) I) as R.
      unfold enc in R. rewrite R. cbn [bind valid negb].
      pose proof (l_rt _ L a q Ha) as R2. unfold enc in R2. rewrite R2.
      reflexivity.
    + pose proof (l_rt _ lawful_bool false q I) as R. unfold enc in R.
      rewrite R. reflexivity.
  - intros s. cbn [dec c_option]. apply bind_fuel; [apply lawful_bool|].
    intros h s1. destruct (negb _); [discriminate|]. destruct h; [|discriminate].
    apply bind_fuel; [apply L|]. intros x s2. destruct (valid s2); discriminate.
Qed.

Lemma consuming_option {A} (c : codec A) : lawful c -> consuming (c_option c).
Proof.
  intros L b a r. cbn [dec c_option]. intros H.
  apply bind_ok in H as (h & [b1 v1] & H1 & H2). simpl in H2.
  destruct v1; [|simpl in H2; congruence]. simpl in H2.
  apply consuming_bool in H1. destruct h.
  - apply bind_ok in H2 as (x & [b2 v2] & H3 & H4). simpl in H4.
    destruct v2; inversion H4; subst.
    destruct (l_local _ L _ _ _ H3) as [[p2 ->] Q2].
    rewrite app_length in H1. lia.
  - inversion H2; subst. lia.
Qed.

Lemma lawful_pair {A B} (ca : codec A) (cb : codec B) :
  lawful ca -> lawful cb -> lawful (c_pair ca cb).
Proof.
  intros La Lb. split.
  - intros b a s. cbn [dec c_pair]. intros H.
    apply bind_ok in H as (x & [b1 v1] & H1 & H2).
    pose proof (l_sticky _ La _ _ _ H1) as V; simpl in V; subst.
    apply bind_ok in H2 as (y & s2 & H3 & H4). inversion H4; subst.
    eapply l_sticky in H3; eauto.
  - intros b a r. cbn [dec c_pair]. intros H.
    apply bind_ok in H as (x & [b1 v1] & H1 & H2).
    apply bind_ok in H2 as (y & [b2 v2] & H3 & H4). inversion H4; subst.
    pose proof (l_valid _ _ _ _ _ Lb H3); subst.
    destruct (l_local _ La _ _ _ H1) as [[p ->] Q].
    destruct (l_local _ Lb _ _ _ H3) as [[p2 ->] Q2].
    split; [exists (p ++ p2); now rewrite app_assoc|].
    intros q. rewrite Q; cbn [bind]. rewrite Q2. reflexivity.
  - intros [x y] q [Hx Hy]. unfold enc. cbn [wr c_pair dec fst snd].
    rewrite concat_app, <- app_assoc.
    pose proof (l_rt _ La x (concat (wr cb y) ++ q) Hx) as R. unfold enc in R.
    rewrite R; cbn [bind].
    pose proof (l_rt _ Lb y q Hy) as R2. unfold enc in R2. rewrite R2. reflexivity.
  - intros s. cbn [dec c_pair]. apply bind_fuel; [apply La|]. intros.
    apply bind_fuel; [apply Lb|]. discriminate.
Qed.

Lemma consuming_pair {A B} (ca : codec A) (cb : codec B) :
  lawful ca -> lawful cb -> consuming ca -> consuming (c_pair ca cb).
Proof.
  intros La Lb C b a r. cbn [dec c_pair]. intros H.
  apply bind_ok in H as (x & [b1 v1] & H1 & H2).
  apply bind_ok in H2 as (y & [b2 v2] & H3 & H4). inversion H4; subst.
  pose proof (l_valid _ _ _ _ _ Lb H3); subst.
  apply C in H1. destruct (l_local _ Lb _ _ _ H3) as [[p2 ->] _].
  rewrite app_length in H1. lia.
Qed.

(** * Counted loops *)

Section Iter.
  Context {A : Type} (c : codec A) (ins : list A -> A -> list A).

  Definition gstep (r : res (list A)) : res (list A) :=
    bind r (fun acc s =>
      if negb (valid s) then Ok acc s else
      bind (dec c s) (fun a s' =>
        if valid s' then Ok (ins acc a) s' else Ok acc s')).

  Context (L : lawful c).

  Lemma gstep_fuel n r : r <> NoFuel -> N.iter n gstep r <> NoFuel.
  Proof.
    intros Hr. induction n using N.peano_ind; [exact Hr|].
    rewrite N.iter_succ. unfold gstep at 1. apply bind_fuel; [assumption|].
    intros acc s. destruct (negb _); [discriminate|].
    apply bind_fuel; [apply L|]. intros x s'. destruct (valid s'); discriminate.
  Qed.

  Lemma giter_local n b acc0 a r :
    N.iter n gstep (Ok acc0 (Dst b true)) = Ok a (Dst r true) ->
    (exists p, b = p ++ r) /\
    forall q, N.iter n gstep (Ok acc0 (Dst (b ++ q) true)) = Ok a (Dst (r ++ q) true).
  Proof.
    revert a r. induction n as [|n IH] using N.peano_ind; intros a r.
    - simpl. intros H; inversion H; subst. split; [exists []; reflexivity|auto].
    - rewrite N.iter_succ. unfold gstep at 1. intros H.
      apply bind_ok in H as (acc & [b1 v1] & H1 & H2). simpl in H2.
      destruct v1; simpl in H2; [|congruence].
      apply bind_ok in H2 as (x & [b2 v2] & H3 & H4). simpl in H4.
      destruct v2; inversion H4; subst.
      destruct (IH _ _ H1) as [[p ->] Q].
      destruct (l_local _ L _ _ _ H3) as [[p2 ->] Q2].
      split; [exists (p ++ p2); now rewrite app_assoc|].
      intros q. rewrite N.iter_succ, Q. cbn [gstep bind valid negb].
      rewrite Q2. reflexivity.
  Qed.

  Lemma giter_rt l acc0 q : Forall (dom c) l ->
    N.iter (len l) gstep (Ok acc0 (Dst (concat (map (enc c) l) ++ q) true))
    = Ok (fold_left ins l acc0) (Dst q true).
  Proof.
    revert acc0. induction l as [|x l IH]; intros acc0 H; [reflexivity|].
    inversion H; subst. rewrite len_cons, N.add_1_l, N.iter_succ_r.
    simpl map; simpl concat. rewrite <- app_assoc.
    cbn [gstep bind valid negb]. rewrite l_rt by assumption. cbn [bind valid].
    rewrite IH by assumption. reflexivity.
  Qed.
End Iter.

Lemma concat_map_enc {A} (c : codec A) l :
  concat (concat (map (wr c) l)) = concat (map (enc c) l).
Proof.
  induction l; simpl; [reflexivity|]. rewrite concat_app, IHl. reflexivity.
Qed.

Lemma fold_snoc {A} (l acc : list A) :
  fold_left (fun m a => m ++ [a]) l acc = acc ++ l.
Proof.
  revert acc; induction l; intros; simpl; [now rewrite app_nil_r|].
  rewrite IHl, <- app_assoc. reflexivity.
Qed.

Lemma lawful_gen_vec {A} (c : codec A) (ins : list A -> A -> list A) (P : list A -> Prop) :
  lawful c ->
  (forall l, P l -> len l < two64 /\ Forall (dom c) l /\ fold_left ins l [] = l) ->
  lawful {| wr l := wr c_u64 (len l) ++ concat (map (wr c) l);
            dec s := bind (dec c_u64 s) (fun n s1 =>
               if negb (valid s1) then Ok [] s1
               else N.iter n (gstep c ins) (Ok [] s1));
            dom := P |}.
Proof.
  intros L HP. split.
  - intros b a s. cbn [dec]. intros H. apply bind_ok in H as (n & s1 & H1 & H2).
    pose proof (l_sticky _ lawful_u64 _ _ _ H1) as V. rewrite V in H2.
    simpl in H2. congruence.
  - intros b a r. cbn [dec]. intros H. apply bind_ok in H as (n & [b1 v1] & H1 & H2).
    simpl in H2. destruct v1; simpl in H2; [|congruence].
    destruct (l_local _ lawful_u64 _ _ _ H1) as [[p ->] Q].
    apply giter_local in H2 as [[p2 ->] Q2]; [|assumption].
    split; [exists (p ++ p2); now rewrite app_assoc|].
    intros q. rewrite Q. cbn [bind valid negb]. rewrite Q2. reflexivity.
  - intros a q Ha. destruct (HP a Ha) as (Hl & Hf & Hi).
    unfold enc. cbn [wr dec]. rewrite concat_app, <- app_assoc, concat_map_enc.
    pose proof (l_rt _ lawful_u64 (len a) (concat (map (enc c) a) ++ q)
      (u64_dom_len _ Hl)) as R. unfold enc at 1 in R. rewrite R.
    cbn [bind valid negb]. rewrite giter_rt by assumption. now rewrite Hi.
  - intros s. cbn [dec]. apply bind_fuel; [apply lawful_u64|].
    intros n s1. destruct (negb _); [discriminate|].
    apply gstep_fuel; [assumption|discriminate].
Qed.

Lemma lawful_vec {A} (c : codec A) : lawful c -> lawful (c_vec c).
Proof.
  intros L. apply (lawful_gen_vec c (fun m a => m ++ [a])); [assumption|].
  intros l [H1 H2]. repeat split; auto. now rewrite fold_snoc.
Qed.

Lemma consuming_u64_bind {A} (k : N -> dst -> res A) b a r :
  (forall n b1 v1, k n (Dst b1 v1) = Ok a (Dst r true) ->
     v1 = true /\ exists p, b1 = p ++ r) ->
  bind (dec c_u64 (Dst b true)) k = Ok a (Dst r true) -> (length r < length b)%nat.
Proof.
  intros Hk H. apply bind_ok in H as (n & [b1 v1] & H1 & H2).
  destruct (Hk _ _ _ H2) as [-> [p ->]]. apply consuming_u64 in H1.
  rewrite app_length in H1. lia.
Qed.

Lemma consuming_vec {A} (c : codec A) : lawful c -> consuming (c_vec c).
Proof.
  intros L b a r H. cbn [dec c_vec] in H. revert H. apply consuming_u64_bind.
  intros n b1 v1 H. simpl in H. destruct v1; simpl in H; [|congruence].
  split; [reflexivity|].
  apply (giter_local c (fun m a => m ++ [a]) L) in H. tauto.
Qed.

Lemma emplace_set_fold {K} `{EqDecision K} (l acc : list K) :
  NoDup (acc ++ l) -> fold_left emplace_set l acc = acc ++ l.
Proof.
  revert acc; induction l as [|x l IH]; intros acc H; simpl;
    [now rewrite app_nil_r|].
  unfold emplace_set at 2. rewrite decide_False.
  - rewrite IH; rewrite <- app_assoc; [reflexivity|exact H].
  - apply NoDup_app in H as (_ & H & _). intros Hx. apply (H x Hx). left.
Qed.

Lemma lawful_oset {K} `{EqDecision K} (c : codec K) : lawful c -> lawful (c_oset c).
Proof.
  intros L. apply (lawful_gen_vec c emplace_set); [assumption|].
  intros l (H1 & H2 & H3). repeat split; auto. now rewrite emplace_set_fold.
Qed.

(** * Maps and unordered sets: loops bounded by the input *)

Section USet.
  Context {K : Type} `{EqDecision K} (c : codec K) (L : lawful c) (C : consuming c).

  Lemma set_loop_fuel f n m b : (length b < f)%nat ->
    set_loop c f n m (Dst b true) <> NoFuel.
  Proof.
    revert m b; induction f; intros m b Hf; simpl in *; [lia|].
    destruct (len m <? n); [|discriminate].
    destruct (dec c (Dst b true)) as [k [b1 v1]| |] eqn:E; simpl; try discriminate.
    - destruct v1; simpl; [|discriminate]. apply IHf.
      apply C in E. lia.
    - exfalso; eapply l_fuel; eauto.
  Qed.

  Lemma set_loop_local f n m b a r :
    set_loop c f n m (Dst b true) = Ok a (Dst r true) ->
    (exists p, b = p ++ r) /\
    forall q f', (f <= f')%nat ->
      set_loop c f' n m (Dst (b ++ q) true) = Ok a (Dst (r ++ q) true).
  Proof.
    revert m b; induction f as [|f IH]; intros m b; simpl.
    - destruct (len m <? n) eqn:E; [discriminate|]. intros H; inversion H; subst.
      split; [exists []; reflexivity|]. intros q [|f'] _; simpl; rewrite E; reflexivity.
    - destruct (len m <? n) eqn:E.
      + intros H. apply bind_ok in H as (k & [b1 v1] & H1 & H2). simpl in H2.
        destruct v1; simpl in H2; [|congruence].
        destruct (l_local _ L _ _ _ H1) as [[p ->] Q].
        destruct (IH _ _ H2) as [[p2 ->] Q2].
        split; [exists (p ++ p2); now rewrite app_assoc|].
        intros q [|f'] Hf; [lia|]. simpl. rewrite E, Q. cbn [bind valid negb].
        apply Q2. lia.
      + intros H; inversion H; subst.
        split; [exists []; reflexivity|]. intros q [|f'] _; simpl; rewrite E; reflexivity.
  Qed.

  Lemma set_loop_rt l acc q f n : Forall (dom c) l -> NoDup (acc ++ l) ->
    n = len acc + len l -> (length l <= f)%nat ->
    set_loop c f n acc (Dst (concat (map (enc c) l) ++ q) true)
    = Ok (acc ++ l) (Dst q true).
  Proof.
    revert acc f; induction l as [|x l IH]; intros acc f Hd Hn Hlen Hf.
    - rewrite app_nil_r. rewrite len_nil in Hlen. simpl.
      destruct f; simpl; destruct (len acc <? n) eqn:E; try lia; reflexivity.
    - pose proof (List.Forall_inv Hd). apply List.Forall_inv_tail in Hd.
      simpl in Hf. destruct f as [|f]; [lia|]. simpl set_loop.
      rewrite len_cons in Hlen. destruct (len acc <? _) eqn:E; [|lia].
      simpl concat. rewrite <- app_assoc, l_rt by assumption. cbn [bind valid negb].
      unfold emplace_set. rewrite decide_False.
      + rewrite IH; [now rewrite <- app_assoc|assumption|now rewrite <- app_assoc| |lia].
        rewrite len_app, len_cons, len_nil. lia.
      + apply NoDup_app in Hn as (_ & Hn & _). intros Hx. apply (Hn x Hx). left.
  Qed.
End USet.

Lemma enc_pos {A} (c : codec A) a : lawful c -> consuming c -> dom c a ->
  (0 < length (enc c a))%nat.
Proof.
  intros L C Ha. pose proof (l_rt _ L a [] Ha) as R.
  apply C in R. rewrite app_length in R. simpl in R. lia.
Qed.

Lemma concat_len_ge {A} (c : codec A) l : lawful c -> consuming c ->
  Forall (dom c) l -> (length l <= length (concat (map (enc c) l)))%nat.
Proof.
  intros L C. induction 1; simpl; [lia|]. rewrite app_length.
  pose proof (enc_pos c x L C H). lia.
Qed.

Lemma lawful_uset {K} `{EqDecision K} (c : codec K) :
  lawful c -> consuming c -> lawful (c_uset c).
Proof.
  intros L C. split.
  - intros b a s. cbn [dec c_uset]. intros H. apply bind_ok in H as (n & s1 & H1 & H2).
    pose proof (l_sticky _ lawful_u64 _ _ _ H1) as V. rewrite V in H2.
    simpl in H2. congruence.
  - intros b a r. cbn [dec c_uset]. intros H. apply bind_ok in H as (n & [b1 v1] & H1 & H2).
    cbn [valid rem] in H2. destruct v1; cbn [negb] in H2; [|congruence].
    destruct (l_local _ lawful_u64 _ _ _ H1) as [[p ->] Q].
    apply set_loop_local in H2 as [[p2 ->] Q2]; [|assumption].
    split; [exists (p ++ p2); now rewrite app_assoc|].
    intros q. rewrite Q. cbn [bind valid negb rem]. rewrite Q2; [reflexivity|].
    rewrite (app_length (p2 ++ r) q). lia.
  - intros a q (Hl & Hn & Hd).
    unfold enc. cbn [wr dec c_uset]. rewrite concat_app, <- app_assoc, concat_map_enc.
    pose proof (l_rt _ lawful_u64 (len a) (concat (map (enc c) a) ++ q)
      (u64_dom_len _ Hl)) as R. unfold enc at 1 in R. rewrite R.
    cbn [bind valid negb rem]. rewrite set_loop_rt; auto.
    pose proof (concat_len_ge c a L C Hd). rewrite app_length. lia.
  - intros s. cbn [dec c_uset]. apply bind_fuel; [apply lawful_u64|].
    intros n [b v]. cbn [valid rem]. destruct v; cbn [negb]; [|discriminate].
    apply set_loop_fuel; auto.
Qed.

Section UMap.
  Context {K V : Type} `{EqDecision K} (ck : codec K) (cv : codec V).
  Context (Lk : lawful ck) (Lv : lawful cv) (Ck : consuming ck).

  Lemma map_loop_fuel f n m b : (length b < f)%nat ->
    map_loop ck cv f n m (Dst b true) <> NoFuel.
  Proof.
    revert m b; induction f; intros m b Hf; simpl in *; [lia|].
    destruct (len m <? n); [|discriminate].
    destruct (dec ck (Dst b true)) as [k [b1 v1]| |] eqn:E; simpl; try discriminate.
    - destruct v1; simpl; [|discriminate]. apply Ck in E.
      destruct (dec cv (Dst b1 true)) as [v [b2 v2]| |] eqn:E2; simpl; try discriminate.
      + destruct v2; simpl; [|discriminate]. apply IHf.
        apply (l_local _ Lv) in E2 as [[p ->] _]. rewrite app_length in E. lia.
      + exact (fun _ => l_fuel _ Lv _ E2).
    - exact (fun _ => l_fuel _ Lk _ E).
  Qed.

  Lemma map_loop_local f n m b a r :
    map_loop ck cv f n m (Dst b true) = Ok a (Dst r true) ->
    (exists p, b = p ++ r) /\
    forall q f', (f <= f')%nat ->
      map_loop ck cv f' n m (Dst (b ++ q) true) = Ok a (Dst (r ++ q) true).
  Proof.
    revert m b; induction f as [|f IH]; intros m b; simpl.
    - destruct (len m <? n) eqn:E; [discriminate|]. intros H; inversion H; subst.
      split; [exists []; reflexivity|]. intros q [|f'] _; simpl; rewrite E; reflexivity.
    - destruct (len m <? n) eqn:E.
      + intros H. apply bind_ok in H as (k & [b1 v1] & H1 & H2). simpl in H2.
        destruct v1; simpl in H2; [|congruence].
        apply bind_ok in H2 as (v & [b2 v2] & H3 & H4). simpl in H4.
        destruct v2; simpl in H4; [|congruence].
        destruct (l_local _ Lk _ _ _ H1) as [[p ->] Q].
        destruct (l_local _ Lv _ _ _ H3) as [[p1 ->] Q1].
        destruct (IH _ _ H4) as [[p2 ->] Q2].
        split; [exists (p ++ p1 ++ p2); now rewrite <- !app_assoc|].
        intros q [|f'] Hf; [lia|]. simpl. rewrite E, Q. cbn [bind valid negb].
        rewrite Q1. cbn [bind valid negb]. apply Q2. lia.
      + intros H; inversion H; subst.
        split; [exists []; reflexivity|]. intros q [|f'] _; simpl; rewrite E; reflexivity.
  Qed.

  Definition enc_kv (p : K * V) : bytes := enc ck (fst p) ++ enc cv (snd p).

  Lemma map_loop_rt l acc q f n :
    Forall (fun p => dom ck (fst p) /\ dom cv (snd p)) l ->
    NoDup (map fst (acc ++ l)) ->
    n = len acc + len l -> (length l <= f)%nat ->
    map_loop ck cv f n acc (Dst (concat (map enc_kv l) ++ q) true)
    = Ok (acc ++ l) (Dst q true).
  Proof.
    revert acc f; induction l as [|[x y] l IH]; intros acc f Hd Hn Hlen Hf.
    - rewrite app_nil_r. rewrite len_nil in Hlen. simpl.
      destruct f; simpl; destruct (len acc <? n) eqn:E; try lia; reflexivity.
    - pose proof (List.Forall_inv Hd) as [Hx Hy]. apply List.Forall_inv_tail in Hd.
      simpl in Hx, Hy, Hf.
      destruct f as [|f]; [lia|]. simpl map_loop.
      rewrite len_cons in Hlen. destruct (len acc <? _) eqn:E; [|lia].
      simpl map; simpl concat. unfold enc_kv at 1; simpl fst; simpl snd.
      rewrite <- !app_assoc, l_rt by assumption. cbn [bind valid negb].
      rewrite l_rt by assumption. cbn [bind valid negb].
      unfold emplace_map. rewrite decide_False.
      + rewrite IH; [now rewrite <- app_assoc|assumption|now rewrite <- app_assoc| |lia].
        rewrite len_app, len_cons, len_nil. lia.
      + rewrite map_app in Hn. apply NoDup_app in Hn as (_ & Hn & _).
        intros Hi. apply (Hn x Hi). left.
  Qed.

  Lemma concat_kv_len l :
    Forall (fun p => dom ck (fst p) /\ dom cv (snd p)) l ->
    (length l <= length (concat (map enc_kv l)))%nat.
  Proof.
    induction 1 as [|[x y] l [Hx Hy]]; simpl; [lia|]. rewrite app_length.
    unfold enc_kv at 1. simpl in *. rewrite app_length.
    pose proof (enc_pos ck x Lk Ck Hx). lia.
  Qed.

  Lemma concat_map_enc_kv l :
    concat (concat (map (fun p => wr ck (fst p) ++ wr cv (snd p)) l))
    = concat (map enc_kv l).
  Proof.
    induction l; simpl; [reflexivity|]. rewrite concat_app, IHl.
    unfold enc_kv at 2, enc. now rewrite concat_app.
  Qed.

  Lemma lawful_map : lawful (c_map ck cv).
  Proof.
    split.
    - intros b a s. cbn [dec c_map]. intros H. apply bind_ok in H as (n & s1 & H1 & H2).
      pose proof (l_sticky _ lawful_u64 _ _ _ H1) as W. rewrite W in H2.
      simpl in H2. congruence.
    - intros b a r. cbn [dec c_map]. intros H. apply bind_ok in H as (n & [b1 v1] & H1 & H2).
      cbn [valid rem] in H2. destruct v1; cbn [negb] in H2; [|congruence].
      destruct (l_local _ lawful_u64 _ _ _ H1) as [[p ->] Q].
      apply map_loop_local in H2 as [[p2 ->] Q2].
      split; [exists (p ++ p2); now rewrite app_assoc|].
      intros q. rewrite Q. cbn [bind valid negb rem]. rewrite Q2; [reflexivity|].
      rewrite (app_length (p2 ++ r) q). lia.
    - intros a q (Hl & Hn & Hd).
      unfold enc. cbn [wr dec c_map]. rewrite concat_app, <- app_assoc, concat_map_enc_kv.
      pose proof (l_rt _ lawful_u64 (len a) (concat (map enc_kv a) ++ q)
        (u64_dom_len _ Hl)) as R. unfold enc at 1 in R. rewrite R.
      cbn [bind valid negb rem]. rewrite map_loop_rt; auto.
      pose proof (concat_kv_len a Hd). rewrite app_length. lia.
    - intros s. cbn [dec c_map]. apply bind_fuel; [apply lawful_u64|].
      intros n [b v]. cbn [valid rem]. destruct v; cbn [negb]; [|discriminate].
      apply map_loop_fuel. lia.
  Qed.
End UMap.

Lemma consuming_map {K V} `{EqDecision K} (ck : codec K) (cv : codec V) :
  lawful ck -> lawful cv -> consuming (c_map ck cv).
Proof.
  intros Lk Lv b a r H. cbn [dec c_map] in H. revert H. apply consuming_u64_bind.
  intros n b1 v1 H. cbn [valid rem] in H. destruct v1; cbn [negb] in H; [|congruence].
  split; [reflexivity|]. apply map_loop_local in H; auto. tauto.
Qed.

Lemma lawful_iso {A B} (f : A -> B) (g : B -> A) c :
  (forall b, f (g b) = b) -> lawful c -> lawful (c_iso f g c).
Proof.
  intros I L. split.
  - intros b a s H. cbn [dec c_iso] in H. apply bind_ok in H as (x & s1 & H1 & H2).
    inversion H2; subst. eapply l_sticky; eauto.
  - intros b a r H. cbn [dec c_iso] in H. apply bind_ok in H as (x & [b1 v1] & H1 & H2).
    inversion H2; subst. destruct (l_local _ L _ _ _ H1) as [E Q].
    split; [exact E|]. intros q. cbn [dec c_iso]. rewrite Q. reflexivity.
  - intros a q Ha. cbn [dec c_iso]. change (enc (c_iso f g c) a) with (enc c (g a)).
    rewrite l_rt; [|assumption|exact Ha]. cbn [bind]. now rewrite I.
  - intros s. cbn [dec c_iso]. apply bind_fuel; [apply L|]. discriminate.
Qed.

Lemma consuming_iso {A B} (f : A -> B) (g : B -> A) c :
  consuming c -> consuming (c_iso f g c).
Proof.
  intros C b a r H. cbn [dec c_iso] in H. apply bind_ok in H as (x & [b1 v1] & H1 & H2).
  inversion H2; subst. eauto.
Qed.

Lemma lawful_unit : lawful c_unit.
Proof.
  split; simpl.
  - intros b a s H; inversion H; reflexivity.
  - intros b a r H; inversion H; subst. split; [exists []; reflexivity|auto].
  - intros [] q _. reflexivity.
  - discriminate.
Qed.

(** * Variants *)

Inductive all_lawful : forall {T}, vcodec T -> Prop :=
| AL_nil {A} (c : codec A) : lawful c -> all_lawful (VNil c)
| AL_cons {A B} (c : codec A) (v : vcodec B) :
    lawful c -> all_lawful v -> all_lawful (VCons c v).

Lemma v_idx_lt {T} (v : vcodec T) x : v_idx v x < v_size v.
Proof.
  induction v; simpl; [lia|]. destruct x; [lia|]. specialize (IHv b). lia.
Qed.

Lemma v_sticky {T} (v : vcodec T) i b a s : all_lawful v ->
  v_dec v i (Dst b false) = Ok a s -> valid s = false.
Proof.
  intros AL. revert i a. induction AL; intros i a; simpl.
  - destruct i; [|discriminate]. apply l_sticky; assumption.
  - destruct i; intros HH; apply bind_ok in HH as (x & s1 & H1 & H2);
      inversion H2; subst.
    + eapply l_sticky; eauto.
    + eauto.
Qed.

Lemma v_local {T} (v : vcodec T) i b a r : all_lawful v ->
  v_dec v i (Dst b true) = Ok a (Dst r true) ->
  (exists p, b = p ++ r) /\
  forall q, v_dec v i (Dst (b ++ q) true) = Ok a (Dst (r ++ q) true).
Proof.
  intros AL. revert i a. induction AL; intros i a; simpl.
  - destruct i; [|discriminate]. apply l_local; assumption.
  - destruct i; intros HH; apply bind_ok in HH as (x & s1 & H1 & H2);
      inversion H2; subst.
    + destruct (l_local _ H _ _ _ H1) as [E Q]. split; [exact E|].
      intros q. rewrite Q. reflexivity.
    + destruct (IHAL _ _ H1) as [E Q]. split; [exact E|].
      intros q. rewrite Q. reflexivity.
Qed.

Lemma v_rt {T} (v : vcodec T) x q : all_lawful v -> v_dom v x ->
  v_dec v (N.to_nat (v_idx v x)) (Dst (concat (v_wr v x) ++ q) true) = Ok x (Dst q true).
Proof.
  intros AL. induction AL; simpl.
  - intros Hx. apply (l_rt _ H x q Hx).
  - destruct x as [x|y]; simpl; intros Hx.
    + pose proof (l_rt _ H x q Hx) as R. unfold enc in R. rewrite R. reflexivity.
    + replace (N.to_nat (1 + v_idx v y)) with (S (N.to_nat (v_idx v y))) by lia.
      rewrite IHAL by assumption. reflexivity.
Qed.

Lemma v_fuel {T} (v : vcodec T) i s : all_lawful v -> v_dec v i s <> NoFuel.
Proof.
  intros AL. revert i. induction AL; intros i; simpl.
  - destruct i; [apply H|discriminate].
  - destruct i; apply bind_fuel; try discriminate; [apply H|apply IHAL].
Qed.

Lemma lawful_variant {T} (v : vcodec T) :
  all_lawful v -> v_size v < 256 -> lawful (c_variant v).
Proof.
  intros AL Hs. split.
  - intros b a s H. cbn [dec c_variant] in H.
    apply bind_ok in H as (x & [b1 v1] & H1 & H2).
    apply (l_sticky _ lawful_u8) in H1. simpl in H1; subst.
    eapply v_sticky; eauto.
  - intros b a r H. cbn [dec c_variant] in H.
    apply bind_ok in H as (x & [b1 v1] & H1 & H2).
    destruct v1; [|eapply v_sticky in H2; [discriminate|assumption]].
    destruct (l_local _ lawful_u8 _ _ _ H1) as [[p ->] Q].
    apply v_local in H2 as [[p2 ->] Q2]; [|assumption].
    split; [exists (p ++ p2); now rewrite app_assoc|].
    intros q. cbn [dec c_variant]. rewrite Q. cbn [bind]. apply Q2.
  - intros a q Ha. unfold enc. cbn [wr dec c_variant].
    rewrite concat_app, <- app_assoc.
    pose proof (l_rt _ lawful_u8 (v_idx v a) (concat (v_wr v a) ++ q)) as R.
    unfold enc in R. rewrite R; cycle 1.
    { simpl. pose proof (v_idx_lt v a). change (256 ^ 1) with 256. lia. }
    cbn [bind]. now apply v_rt.
  - intros s. cbn [dec c_variant]. apply bind_fuel; [apply lawful_u8|].
    intros. now apply v_fuel.
Qed.

Lemma consuming_variant {T} (v : vcodec T) : all_lawful v -> consuming (c_variant v).
Proof.
  intros AL b a r H. cbn [dec c_variant] in H.
  apply bind_ok in H as (x & [b1 v1] & H1 & H2).
  destruct v1; [|eapply v_sticky in H2; [discriminate|assumption]].
  apply consuming_u8 in H1. apply v_local in H2 as [[p2 ->] _]; [|assumption].
  rewrite app_length in H1. lia.
Qed.

(** * Consequences *)

Lemma lawful_prefix_free {A} (c : codec A) a b q : lawful c ->
  dom c a -> dom c b -> enc c b = enc c a ++ q -> a = b /\ q = [].
Proof.
  intros L Ha Hb E.
  pose proof (l_rt _ L a q Ha) as R1. pose proof (l_rt _ L b [] Hb) as R2.
  rewrite app_nil_r, E, R1 in R2. inversion R2; subst. split; reflexivity.
Qed.

Lemma lawful_inj {A} (c : codec A) a b : lawful c ->
  dom c a -> dom c b -> enc c a = enc c b -> a = b.
Proof.
  intros L Ha Hb E. apply (lawful_prefix_free c a b [] L Ha Hb).
  now rewrite app_nil_r.
Qed.

Lemma lawful_truncated {A} (c : codec A) a p q : lawful c ->
  dom c a -> enc c a = p ++ q -> q <> [] ->
  dec c (Dst p true) = Throw \/
  exists x s, dec c (Dst p true) = Ok x s /\ valid s = false.
Proof.
  intros L Ha E Hq. destruct (dec c (Dst p true)) as [x [r v]| |] eqn:D.
  - right. exists x, (Dst r v). split; [reflexivity|]. destruct v; [|reflexivity].
    exfalso. apply (l_local _ L) in D as [_ Q]. specialize (Q q).
    rewrite <- E, <- (app_nil_r (enc c a)), (l_rt _ L a [] Ha) in Q.
    inversion Q as [[H1 H2]]. symmetry in H2. apply app_eq_nil in H2. tauto.
  - now left.
  - exfalso. eapply l_fuel; eauto.
Qed.

(** * The writing serializers *)

Lemma serialized_size_acc w n : fold_left sizeser_write w n = n + len (concat w).
Proof.
  revert n; induction w as [|d w IH]; intros n; simpl; [unfold len; simpl; lia|].
  rewrite IH. unfold sizeser_write. rewrite len_app. lia.
Qed.

Lemma serialized_size_ok w : serialized_size w = len (concat w).
Proof. unfold serialized_size. now rewrite serialized_size_acc. Qed.

Lemma buf_overwrite_spec pre mid post d : length mid = length d ->
  buf_overwrite (pre ++ mid ++ post) (len pre) d = pre ++ d ++ post.
Proof.
  intros Hm. unfold buf_overwrite, len. rewrite Nat2N.id.
  rewrite firstn_app, firstn_all, Nat.sub_diag, firstn_O, app_nil_r.
  f_equal. f_equal.
  rewrite skipn_app, skipn_all2 by lia. simpl.
  rewrite skipn_app, skipn_all2 by lia. simpl.
  replace (length pre + length d - length pre - length mid)%nat with O by lia.
  reflexivity.
Qed.

Lemma bufser_fill w pre junk : length junk = length (concat w) ->
  fold_left bufser_write w (BufSer (pre ++ junk) (len pre))
  = BufSer (pre ++ concat w) (len pre + len (concat w)).
Proof.
  revert pre junk; induction w as [|d w IH]; intros pre junk Hl; simpl in *.
  - destruct junk; [|discriminate]. rewrite len_nil, N.add_0_r. reflexivity.
  - rewrite app_length in Hl.
    rewrite <- (firstn_skipn (length d) junk).
    assert (length (firstn (length d) junk) = length d)
      by (rewrite firstn_length; lia).
    unfold bufser_write at 2; cbn [bs_pkt bs_cursor].
    destruct (len _ <? _) eqn:E.
    { unfold len in E. rewrite !app_length, skipn_length in E. lia. }
    rewrite buf_overwrite_spec by assumption.
    rewrite app_assoc. replace (len pre + len d) with (len (pre ++ d))
      by apply len_app.
    rewrite IH by (rewrite skipn_length; lia).
    rewrite !len_app, <- app_assoc. f_equal. lia.
Qed.

Lemma bufser_append w pre :
  fold_left bufser_write w (BufSer pre (len pre))
  = BufSer (pre ++ concat w) (len pre + len (concat w)).
Proof.
  revert pre; induction w as [|d w IH]; intros pre; simpl.
  - rewrite app_nil_r, len_nil, N.add_0_r. reflexivity.
  - unfold bufser_write at 2; cbn [bs_pkt bs_cursor].
    assert (E : buf_overwrite
        (if len pre <? len pre + len d
         then buf_extend pre (len pre + len d - len pre) else pre) (len pre) d
        = pre ++ d).
    { destruct (_ <? _) eqn:E.
      - unfold buf_extend.
        replace (pre ++ _) with
          (pre ++ repeat 0 (N.to_nat (len pre + len d - len pre)) ++ [])
          by now rewrite app_nil_r.
        rewrite buf_overwrite_spec; [now rewrite app_nil_r|].
        rewrite repeat_length. unfold len. lia.
      - assert (d = []) as -> by (destruct d; [reflexivity|rewrite len_cons in E; lia]).
        pose proof (buf_overwrite_spec pre [] [] [] eq_refl) as B.
        simpl in B. rewrite !app_nil_r in B. rewrite B. now rewrite app_nil_r. }
    rewrite E, <- len_app, IH, !len_app, <- app_assoc. f_equal. lia.
Qed.

Lemma make_buffer_ok w : make_buffer w = concat w.
Proof.
  unfold make_buffer. rewrite serialized_size_ok.
  pose proof (bufser_fill w [] (repeat 0 (N.to_nat (len (concat w))))) as B.
  unfold buf_extend. change (len (@nil N)) with 0 in B. simpl in *. rewrite B; [reflexivity|].
  rewrite repeat_length. unfold len. lia.
Qed.

Lemma nuser_fill w pre junk : length junk = length (concat w) ->
  fold_left nuser_write w (NuSer (pre ++ junk) (len pre) true)
  = NuSer (pre ++ concat w) (len pre + len (concat w)) true.
Proof.
  revert pre junk; induction w as [|d w IH]; intros pre junk Hl; simpl in *.
  - destruct junk; [|discriminate]. rewrite len_nil, N.add_0_r. reflexivity.
  - rewrite app_length in Hl.
    rewrite <- (firstn_skipn (length d) junk).
    assert (length (firstn (length d) junk) = length d)
      by (rewrite firstn_length; lia).
    unfold nuser_write at 2; cbn [nu_buf nu_pos nu_valid].
    destruct (len _ <? _) eqn:E.
    { unfold len in E. rewrite !app_length, skipn_length in E. lia. }
    rewrite buf_overwrite_spec by assumption.
    rewrite app_assoc. replace (len pre + len d) with (len (pre ++ d))
      by apply len_app.
    rewrite IH by (rewrite skipn_length; lia).
    rewrite !len_app, <- app_assoc. f_equal. lia.
Qed.

Lemma make_nuraft_buffer_ok junk w : (forall n, len (junk n) = n) ->
  make_nuraft_buffer junk w = NuSer (concat w) (len (concat w)) true.
Proof.
  intros Hj. unfold make_nuraft_buffer. rewrite serialized_size_ok.
  pose proof (nuser_fill w [] (junk (len (concat w)))) as B.
  change (len (@nil N)) with 0 in B. simpl in B. rewrite B.
  - f_equal.
  - specialize (Hj (len (concat w))). unfold len in *. lia.
Qed.

Lemma ostream_ok w f : fold_left ostream_write w f = f ++ concat w.
Proof.
  revert f; induction w; intros; simpl; [now rewrite app_nil_r|].
  rewrite IHw. unfold ostream_write. now rewrite app_assoc.
Qed.

(** The primitive read agrees with [rd] when nothing wraps. *)
Lemma buf_read_rd pkt cursor n v :
  cursor <= len pkt -> len pkt <= max_alloc -> n <= max_alloc ->
  match rd n (Dst (skipn (N.to_nat cursor) pkt) v) with
  | (Some b, s) => buf_read pkt cursor n = RdOk b (cursor + n) /\
                   rem s = skipn (N.to_nat (cursor + n)) pkt /\ valid s = v
  | (None, s) => buf_read pkt cursor n = RdFail /\ valid s = false
  end.
Proof.
  intros Hc Hp Hn. unfold rd, buf_read. simpl.
  assert (W : add64 cursor n = cursor + n).
  { unfold add64, wrap64. apply N.mod_small.
    unfold max_alloc, two64 in *. change (2 ^ 63 - 1) with 9223372036854775807 in *.
    change (2 ^ 64) with 18446744073709551616. lia. }
  rewrite W. assert (L : len (skipn (N.to_nat cursor) pkt) = len pkt - cursor).
  { unfold len. rewrite skipn_length. lia. }
  rewrite L. destruct (len pkt - cursor <? n) eqn:E.
  - destruct (len pkt <? cursor + n) eqn:E2; [auto|lia].
  - destruct (len pkt <? cursor + n) eqn:E2; [lia|]. simpl.
    rewrite drop_drop, N2Nat.inj_add. repeat split.
Qed.

Lemma buf_read_exact pkt cursor n :
  cursor <= len pkt -> len pkt <= max_alloc -> n <= max_alloc ->
  buf_read pkt cursor n <> RdOob /\
  ((exists d c, buf_read pkt cursor n = RdOk d c) <-> n <= len pkt - cursor) /\
  (forall d c, buf_read pkt cursor n = RdOk d c ->
     len d = n /\ c = cursor + n /\
     exists pre post, pkt = pre ++ d ++ post /\ len pre = cursor).
Proof.
  intros Hc Hp Hn. unfold buf_read.
  assert (W : add64 cursor n = cursor + n).
  { unfold add64, wrap64. apply N.mod_small.
    unfold max_alloc, two64 in *. change (2 ^ 63 - 1) with 9223372036854775807 in *.
    change (2 ^ 64) with 18446744073709551616. lia. }
  rewrite W. destruct (len pkt <? cursor + n) eqn:E.
  - split; [discriminate|]. split; [|discriminate].
    split; [intros (d & c & H); discriminate|]. lia.
  - split; [discriminate|]. split.
    + split; [lia|]. intros _. eauto.
    + intros d c H; inversion H; subst. split.
      { unfold len in *. rewrite firstn_length, skipn_length. lia. }
      split; [reflexivity|].
      exists (firstn (N.to_nat cursor) pkt),
        (skipn (N.to_nat n) (skipn (N.to_nat cursor) pkt)).
      rewrite !firstn_skipn. split; [reflexivity|].
      unfold len in *. rewrite firstn_length. lia.
Qed.
