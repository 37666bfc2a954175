(** C43: the bounded set of recently seen values. [cache_adds], [accepted] and
    [last_n] (CacheProofs.v) are the answers of a sequence of adds, the values
    whose add answered true, and the last elements of a list. *)
From Coq Require Import NArith List.
From stdpp Require Import base list.
From Verif Require Import Base CacheModel CacheProofs.
Import ListNotations.
Open Scope N_scope.

(** The cache contains exactly the most recent values whose add was new. The
    number of values kept is one less than the configured size. *)
Theorem C43_most_recent_kept {A} `{EqDecision A} (max : N) (vs : list A) c bs :
  cache_adds (cache_new max) vs = (c, bs) ->
  cs_queue c = last_n (N.to_nat max - 1) (accepted vs bs).
Proof. exact (cache_contents max vs c bs). Qed.
Print Assumptions C43_most_recent_kept.
Theorem C43_contains_is_membership {A} `{EqDecision A} (c : cache_set A) v :
  cache_contains c v = true <-> In v (cs_queue c).
Proof. exact (cache_contains_iff c v). Qed.
Print Assumptions C43_contains_is_membership.
Theorem C43_size_bounded {A} `{EqDecision A} (max : N) (vs : list A) c bs :
  cache_adds (cache_new max) vs = (c, bs) ->
  (length (cs_queue c) <= N.to_nat max)%nat.
Proof. exact (cache_size max vs c bs). Qed.
Print Assumptions C43_size_bounded.
Theorem C43_no_duplicates {A} `{EqDecision A} (max : N) (vs : list A) c bs :
  cache_adds (cache_new max) vs = (c, bs) -> List.NoDup (cs_queue c).
Proof. exact (cache_nodup max vs [] c bs (List.NoDup_nil A)). Qed.
Print Assumptions C43_no_duplicates.
Theorem C43_present_unchanged {A} `{EqDecision A} (max : N) (q : list A) v :
  v ∈ q -> cache_add (CacheSet max q) v = (CacheSet max q, false).
Proof. exact (cache_present max q v). Qed.
Print Assumptions C43_present_unchanged.

(** Finding: the cache is documented to hold [max_size] elements; it evicts when
    the [max_size]-th arrives. *)
Theorem C43_capacity_refuted :
  exists (max : N) (vs : list N),
    N.of_nat (length vs) = max /\ List.NoDup vs /\
    exists v, In v vs /\
      cache_contains (fst (cache_adds (cache_new max) vs)) v = false.
Proof.
  exact (ex_intro _ 2 (ex_intro _ [7; 8]
    (conj eq_refl (conj
      (List.NoDup_cons 7 (fun H : In 7 [8] => match H with
         | or_introl E => ltac:(discriminate E) | or_intror F => F end)
        (List.NoDup_cons 8 (fun H : In 8 [] => H) (List.NoDup_nil N)))
      (ex_intro _ 7 (conj (or_introl eq_refl) eq_refl)))))).
Qed.
Print Assumptions C43_capacity_refuted.

Example C43_example :
  cache_adds (cache_new 3) [1; 2; 1; 3; 1] = (CacheSet 3 [3; 1], [true; true; false; true; true]).
Proof. vm_compute. reflexivity. Qed.
