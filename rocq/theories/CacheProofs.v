(** Proofs about cache_set. *)
From Coq Require Import NArith List Bool Lia.
From stdpp Require Import base decidable list.
From Verif Require Import Base CodecModel CacheModel.
Import ListNotations.
Open Scope N_scope.

Section Cache.
  Context {A : Type} `{EqDecision A}.

  (** Specification: what a sequence of adds answers and leaves. *)
  Fixpoint cache_adds (c : cache_set A) (vs : list A) : cache_set A * list bool :=
    match vs with
    | [] => (c, [])
    | v :: r =>
        let '(c1, b) := cache_add c v in
        let '(c2, bs) := cache_adds c1 r in
        (c2, b :: bs)
    end.

  (** The elements whose add answered true, in order. *)
  Fixpoint accepted (vs : list A) (bs : list bool) : list A :=
    match vs, bs with
    | v :: r, b :: s => if b then v :: accepted r s else accepted r s
    | _, _ => []
    end.

  Definition last_n (n : nat) (l : list A) : list A := drop (length l - n) l.

  Lemma last_n_snoc n (l : list A) v :
    last_n (S n) (l ++ [v]) = last_n n l ++ [v].
  Proof.
    unfold last_n. rewrite app_length. cbn.
    replace (length l + 1 - S n)%nat with (length l - n)%nat by lia.
    rewrite drop_app_le by lia. reflexivity.
  Qed.

  Lemma last_n_tail n (l : list A) :
    (length l = S n) -> tail l = last_n n l.
  Proof. intros E. unfold last_n. rewrite E. replace (S n - n)%nat with 1%nat by lia.
    destruct l; reflexivity. Qed.

  Lemma last_n_length n (l : list A) : (length (last_n n l) <= n)%nat.
  Proof. unfold last_n. rewrite drop_length. lia. Qed.

  Lemma last_n_app n (l1 l2 : list A) :
    last_n n (last_n n l1 ++ l2) = last_n n (l1 ++ l2).
  Proof.
    unfold last_n. rewrite !app_length, drop_length.
    destruct (decide (length l1 <= n)%nat).
    - replace (length l1 - n)%nat with 0%nat by lia. rewrite drop_0.
      f_equal. lia.
    - replace (length l1 - (length l1 - n))%nat with n by lia.
      destruct (decide (length l2 <= n)%nat).
      + rewrite !drop_app_le by (rewrite ?drop_length; lia).
        rewrite drop_drop. f_equal. f_equal. lia.
      + rewrite !drop_app_ge by (rewrite ?drop_length; lia).
        rewrite drop_length. f_equal. lia.
  Qed.

  Lemma cache_add_queue m q v :
    (length q <= N.to_nat m - 1)%nat ->
    cache_add (CacheSet m q) v =
    if bool_decide (v ∈ q) then (CacheSet m q, false)
    else (CacheSet m (last_n (N.to_nat m - 1) (q ++ [v])), true).
  Proof.
    intros Hlen. unfold cache_add, cache_contains. cbn.
    destruct (bool_decide_reflect (v ∈ q)); [done|]. f_equal. f_equal.
    unfold len. rewrite app_length. cbn.
    destruct (N.leb_spec m (N.of_nat (length q + 1))).
    - destruct (decide (N.to_nat m = 0)%nat).
      + assert (length q = 0)%nat by lia. destruct q; [|discriminate]. cbn.
        unfold last_n. cbn. now rewrite e.
      + apply last_n_tail. rewrite app_length. cbn. lia.
    - unfold last_n. rewrite app_length. cbn.
      replace (length q + 1 - (N.to_nat m - 1))%nat with 0%nat by lia. done.
  Qed.

  Lemma cache_adds_contents m vs : forall q c bs,
    (length q <= N.to_nat m - 1)%nat ->
    cache_adds (CacheSet m q) vs = (c, bs) ->
    length bs = length vs /\
    c = CacheSet m (last_n (N.to_nat m - 1) (q ++ accepted vs bs)).
  Proof.
    induction vs as [|v vs IH]; cbn; intros q c bs Hlen H.
    - injection H as <- <-. rewrite app_nil_r. split; [done|]. f_equal.
      unfold last_n. replace (length q - _)%nat with 0%nat by lia. done.
    - rewrite cache_add_queue in H by done.
      destruct (bool_decide_reflect (v ∈ q)).
      + destruct (cache_adds _ vs) as [c2 bs2] eqn:E. injection H as <- <-.
        destruct (IH _ _ _ Hlen E) as [? ->]. cbn. split; [lia|done].
      + destruct (cache_adds _ vs) as [c2 bs2] eqn:E. injection H as <- <-.
        destruct (IH _ _ _ (last_n_length _ _) E) as [? ->]. cbn. split; [lia|].
        f_equal. rewrite last_n_app. rewrite <- app_assoc. reflexivity.
  Qed.

  Lemma cache_contents m vs c bs :
    cache_adds (cache_new m) vs = (c, bs) ->
    cs_queue c = last_n (N.to_nat m - 1) (accepted vs bs).
  Proof.
    intros H. destruct (cache_adds_contents m vs [] c bs) as [_ ->]; [cbn; lia|done|].
    reflexivity.
  Qed.

  Lemma cache_size m vs c bs :
    cache_adds (cache_new m) vs = (c, bs) ->
    (length (cs_queue c) <= N.to_nat m)%nat.
  Proof.
    intros H. rewrite (cache_contents _ _ _ _ H).
    pose proof (last_n_length (N.to_nat m - 1) (accepted vs bs)). lia.
  Qed.

  Lemma cache_nodup m vs : forall q c bs,
    List.NoDup q -> cache_adds (CacheSet m q) vs = (c, bs) -> List.NoDup (cs_queue c).
  Proof.
    induction vs as [|v vs IH]; cbn; intros q c bs Hnd H.
    - injection H as <- <-. done.
    - destruct (cache_add (CacheSet m q) v) as [c1 b] eqn:E1.
      destruct (cache_adds c1 vs) as [c2 bs2] eqn:E2. injection H as <- <-.
      unfold cache_add, cache_contains in E1. cbn in E1.
      destruct (bool_decide_reflect (v ∈ q)); injection E1 as <- <-.
      + now apply (IH q _ bs2).
      + eapply IH; [|exact E2].
        assert (List.NoDup (q ++ [v])).
        { apply NoDup_ListNoDup, NoDup_app. split; [now apply NoDup_ListNoDup|].
          split; [|apply NoDup_singleton]. intros x Hx Hv.
          apply elem_of_list_singleton in Hv. now subst. }
        destruct (_ <=? _); [|done].
        destruct (q ++ [v]); [done|]. cbn. now inversion H.
  Qed.

  Lemma cache_present m (q : list A) v :
    v ∈ q -> cache_add (CacheSet m q) v = (CacheSet m q, false).
  Proof. intros H. unfold cache_add, cache_contains. cbn.
    now rewrite bool_decide_eq_true_2. Qed.

  Lemma cache_contains_iff (c : cache_set A) v :
    cache_contains c v = true <-> In v (cs_queue c).
  Proof. unfold cache_contains. rewrite bool_decide_eq_true. apply elem_of_list_In. Qed.
End Cache.
