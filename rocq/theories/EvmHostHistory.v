(** Proofs about EVM transactions: histories. *)
From Coq Require Import NArith List Bool Lia.
From stdpp Require Import gmap.
From Verif Require Import Base EvmHostModel EvmHostSpec EvmHostProofs EvmHostSteps EvmHostRuns EvmHostFinal EvmHostMore.
Import ListNotations.
Open Scope N_scope.

(** Well-formed accounts stay well formed and addresses with a key pair stay without code. *)
Lemma keeps_ok w locks from t es u :
  w_ro w = false -> db_ok (w_db w) -> is_precompile from = false ->
  machine_honest w locks from t es -> execute w locks from t es = Some (Done u) ->
  db_ok (apply_updates (w_db w) u).
Proof.
  intros Hro Hok Pf Ho E.
  destruct (done_facts _ _ _ _ _ _ Hro Hok Pf Ho E) as
    (r & r' & s & g & St & Hh & Ss & Rs & Hs & R & Hd & _).
  destruct (begun _ _ _ _ _ Hro Hok Pf St) as (Sa & _).
  destruct (steps_sum w es r r' Hro Sa Hh Ss) as [Sa' _]. destruct (Sa' R) as [_ Vk].
  assert (Ve : view_ok (end_view w from t s (r_host r'))).
  { unfold end_view. pose proof (first_view_ok w from t Hro Hok). destruct s; auto. }
  intros a b n Ha. rewrite Hd, lookup_omap in Ha.
  destruct (last_view from (wmul g (x_price t)) (end_view w from t s (r_host r')) !! a) as [x|] eqn:L; [|discriminate].
  cbn in Ha. unfold fate in Ha. destruct (a_destruct x); [discriminate|]. injection Ha as <- <-.
  unfold last_view in L. destruct (decide (a = from)) as [->|Hn].
  - rewrite lookup_insert in L. injection L as <-. cbn. split; [apply wadd_lt|].
    unfold acc_at. destruct (end_view w from t s (r_host r') !! from) as [y|] eqn:Q; [apply (Ve _ _ Q)|apply two256_pos].
  - rewrite lookup_insert_ne in L by congruence. exact (Ve _ _ L).
Qed.

Lemma keeps_codeless w locks from t es u a :
  w_ro w = false -> db_ok (w_db w) -> is_precompile from = false ->
  machine_honest w locks from t es -> execute w locks from t es = Some (Done u) ->
  plain_account w a -> code_len (apply_updates (w_db w) u) a = 0%nat.
Proof.
  intros Hro Hok Pf Ho E Pa.
  destruct (done_facts _ _ _ _ _ _ Hro Hok Pf Ho E) as
    (r & r' & s & g & St & Hh & Ss & Rs & Hs & R & Hd & Hc & _).
  destruct (begun _ _ _ _ _ Hro Hok Pf St) as (Sa & _ & _ & _ & Ap).
  destruct (steps_plain w a es r r' Hro Pa (Ap a Pa) Sa Hh Ss R) as ([Nc _] & _).
  unfold code_len. cbn. rewrite Hc, lookup_union, lookup_omap.
  destruct Pa as [_ L]. unfold code_len in L.
  assert (D : forall c, d_code (w_db w) !! a = Some c -> length c = 0%nat).
  { intros c Q. now rewrite Q in L. }
  destruct (h_code (r_host r') !! a) as [[[c|] f]|] eqn:Q; cbn.
  - destruct f; cbn.
    + pose proof (Nc _ _ Q) as ->.
      match goal with |- context [union_with _ _ ?o] => now destruct o end.
    + match goal with |- context [union_with _ _ ?o] => destruct o eqn:Z end; [exact (D _ Z)|reflexivity].
  - match goal with |- context [union_with _ _ ?o] => destruct o eqn:Z end; [exact (D _ Z)|reflexivity].
  - match goal with |- context [union_with _ _ ?o] => destruct o eqn:Z end; [exact (D _ Z)|reflexivity].
Qed.

(** ** The nonces of a history *)
Definition sent (a : N) (l : list (N * etx)) : nat := length (filter (fun p => fst p = a) l).

Lemma sent_snoc a l p : sent a (l ++ [p]) = (sent a l + if decide (fst p = a) then 1 else 0)%nat.
Proof.
  unfold sent. rewrite filter_app, app_length. f_equal. rewrite filter_cons.
  destruct (decide (fst p = a)); reflexivity.
Qed.

Lemma wadd_count x k : wadd ((x + k) mod two256) 1 = (x + (k + 1)) mod two256.
Proof.
  unfold wadd. pose proof two256_pos. rewrite N.add_mod_idemp_l by lia. f_equal. lia.
Qed.

Lemma history_nonces caddr caddr2 d l d' :
  history caddr caddr2 d l d' -> db_ok d ->
  (forall a, plain_address caddr caddr2 a -> code_len d a = 0%nat) ->
  db_ok d' /\ (forall a, plain_address caddr caddr2 a -> code_len d' a = 0%nat) /\
  (forall a, plain_address caddr caddr2 a -> nonce d' a = (nonce d a + N.of_nat (sent a l)) mod two256) /\
  (forall i a t, l !! i = Some (a, t) ->
     x_nonce t = (nonce d a + N.of_nat (sent a (take i l)) + 1) mod two256).
Proof.
  intros H Hok Hc. induction H as [|l d1 env dbg locks from t es u w H IH Pl Ho E].
  - split_and!; auto.
    + intros a Pa. cbn. rewrite N.add_0_r. symmetry. apply N.mod_small. now apply balance_ok.
    + intros i a t. rewrite lookup_nil. discriminate.
  - destruct IH as (Hok1 & Hc1 & Hn1 & Hx1).
    assert (Pa : forall a, plain_address caddr caddr2 a -> plain_account w a).
    { intros a Q. split; [exact Q|]. now apply Hc1. }
    destruct (nonces w locks from t es u eq_refl Hok1 (Pa _ Pl) Ho E) as (N1 & N2 & N3).
    assert (Xt : x_nonce t = (nonce d from + N.of_nat (sent from l) + 1) mod two256).
    { rewrite <- N1. cbn [w_db w]. rewrite (Hn1 _ Pl). unfold wadd. pose proof two256_pos.
      apply N.add_mod_idemp_l. lia. }
    split_and!.
    + exact (keeps_ok w locks from t es u eq_refl Hok1 (proj1 Pl) Ho E).
    + intros a Q. exact (keeps_codeless w locks from t es u a eq_refl Hok1 (proj1 Pl) Ho E (Pa _ Q)).
    + intros a Q. rewrite sent_snoc. cbn [fst]. destruct (decide (from = a)) as [<-|Hne].
      * change d1 with (w_db w). rewrite N2, Xt. f_equal. lia.
      * change d1 with (w_db w). rewrite (N3 a (Pa _ Q) (not_eq_sym Hne)). cbn [w_db w]. rewrite (Hn1 _ Q). f_equal. lia.
    + intros i a t' L. destruct (decide (i < length l)%nat) as [Li|Li].
      * rewrite lookup_app_l in L by exact Li. rewrite take_app_le by lia. exact (Hx1 _ _ _ L).
      * rewrite lookup_app_r in L by lia. destruct (i - length l)%nat as [|k] eqn:Q; [|discriminate].
        injection L as <- <-. rewrite take_app_alt by lia. exact Xt.
Qed.

Lemma sent_le a l : (sent a l <= length l)%nat.
Proof. apply filter_length. Qed.
Lemma sent_take_lt a l i j t :
  (i < j)%nat -> l !! i = Some (a, t) -> (j <= length l)%nat -> (sent a (take i l) < sent a (take j l))%nat.
Proof.
  intros Hij L Hj. replace (take j l) with (take i l ++ take (j - i) (drop i l)).
  - unfold sent. rewrite filter_app, app_length.
    rewrite (drop_S _ _ _ L). destruct (j - i)%nat as [|k] eqn:Q; [lia|]. cbn [take].
    rewrite filter_cons_True by reflexivity. cbn. lia.
  - rewrite <- (take_drop i (take j l)). rewrite take_take, skipn_firstn_comm. f_equal. f_equal. lia.
Qed.

Theorem no_replay caddr caddr2 d l d' i j a t1 t2 :
  history caddr caddr2 d l d' -> db_ok d ->
  (forall a, plain_address caddr caddr2 a -> code_len d a = 0%nat) ->
  N.of_nat (length l) < two256 ->
  (i < j)%nat -> l !! i = Some (a, t1) -> l !! j = Some (a, t2) -> x_nonce t1 <> x_nonce t2.
Proof.
  intros H Hok Hc Hl Hij L1 L2 Eq.
  destruct (history_nonces _ _ _ _ _ H Hok Hc) as (_ & _ & _ & X).
  rewrite (X _ _ _ L1), (X _ _ _ L2) in Eq.
  assert (Lj := lookup_lt_Some _ _ _ L2).
  assert (S1 := sent_take_lt a l i j t1 Hij L1 ltac:(lia)).
  assert (S2 : (sent a (take j l) <= j)%nat).
  { etransitivity; [apply sent_le|]. rewrite take_length. lia. }
  set (p := N.of_nat (sent a (take i l))) in *. set (q := N.of_nat (sent a (take j l))) in *.
  assert (p < q) by lia. assert (q < two256) by lia. pose proof two256_pos.
  set (b := nonce d a + 1) in *.
  replace (nonce d a + p + 1) with (b + p) in Eq by lia.
  replace (nonce d a + q + 1) with (b + q) in Eq by lia. clearbody p q b.
  pose proof (N.div_mod' (b + p) two256) as D1. pose proof (N.div_mod' (b + q) two256) as D2.
  rewrite Eq in D1. set (u := (b + q) mod two256) in *. set (k1 := (b + p) / two256) in *.
  set (k2 := (b + q) / two256) in *. clearbody u k1 k2.
  assert (k1 < k2) by (destruct (N.lt_ge_cases k1 k2); [assumption|nia]). nia.
Qed.

(** Creations by the senders of a history are at different addresses. *)
Theorem creations_apart caddr caddr2 d l d' i j a1 a2 t1 t2 :
  history caddr caddr2 d l d' -> db_ok d ->
  (forall a, plain_address caddr caddr2 a -> code_len d a = 0%nat) ->
  N.of_nat (length l) < two256 ->
  (forall s n s' n', n < two256 -> n' < two256 -> caddr s n = caddr s' n' -> s = s' /\ n = n') ->
  i <> j -> l !! i = Some (a1, t1) -> l !! j = Some (a2, t2) ->
  caddr a1 (x_nonce t1) <> caddr a2 (x_nonce t2).
Proof.
  intros H Hok Hc Hl Inj Hij L1 L2 Eq.
  destruct (history_nonces _ _ _ _ _ H Hok Hc) as (_ & _ & _ & X). pose proof two256_pos.
  destruct (Inj a1 (x_nonce t1) a2 (x_nonce t2)) as [<- E]; auto.
  - rewrite (X _ _ _ L1). apply N.mod_lt. lia.
  - rewrite (X _ _ _ L2). apply N.mod_lt. lia.
  - destruct (Nat.lt_ge_cases i j).
    + exact (no_replay _ _ _ _ _ i j a1 t1 t2 H Hok Hc Hl H1 L1 L2 E).
    + refine (no_replay _ _ _ _ _ j i a1 t2 t1 H Hok Hc Hl _ L2 L1 (eq_sym E)). lia.
Qed.
