(** cbdc::cache_set, src/util/common/cache_set.hpp. *)
From Coq Require Import NArith List Bool.
From stdpp Require Import base decidable list.
From Verif Require Import Base CodecModel.
Import ListNotations.
Open Scope N_scope.

Section Cache.
  Context {A : Type} `{EqDecision A}.

  (** cache_set: m_eviction_queue holds references to the elements of m_vals in
      insertion order (oldest first) and always the same elements as m_vals
      (cache_set.hpp:67-70), so the queue alone is the state. *)
  Record cache_set := CacheSet { cs_max : N; cs_queue : list A }.

  (** cache_set(max_size), cache_set.hpp:29-33. *)
  Definition cache_new (max : N) : cache_set := CacheSet max [].

  (** contains, cache_set.hpp:61-64. *)
  Definition cache_contains (c : cache_set) (v : A) : bool :=
    bool_decide (v ∈ cs_queue c).

  (** add, cache_set.hpp:39-56: emplace, push on the queue, and evict the oldest
      element as soon as the queue has [max_size] elements. *)
  Definition cache_add (c : cache_set) (v : A) : cache_set * bool :=
    if cache_contains c v then (c, false)
    else
      let q := cs_queue c ++ [v] in
      (CacheSet (cs_max c) (if cs_max c <=? len q then tail q else q), true).
End Cache.
Arguments cache_set : clear implicits.
