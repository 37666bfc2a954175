(** Specification of the transaction identifiers and attestations. *)
From Coq Require Import NArith List.
From Verif Require Import Base CodecModel TxModel.
Import ListNotations.
Open Scope N_scope.

Definition collision (sha : bytes -> hash) : Prop :=
  exists x y, x <> y /\ sha x = sha y.

(** Values that fit their C++ types. *)
Definition typed_full_tx (tx : full_tx) : Prop := dom c_full_tx tx.
Definition typed_compact_tx (t : compact_tx) : Prop := dom c_compact_tx t.

(** [t] carries a sentinel attestation by [pk]. *)
Definition attested_by (pk_parse : N -> bool) (schnorr : N -> hash -> N -> bool)
    (digest : hash) (t : compact_tx) (pk : N) : Prop :=
  exists sg, In (pk, sg) (ctx_atts t) /\ pk_parse pk = true /\
             schnorr pk digest sg = true.

(** At least [threshold] different known sentinels attested, and there is no
    attestation by an unknown key or with a bad signature. *)
Definition sufficiently_attested pk_parse schnorr (digest : hash) (t : compact_tx)
    (known : list N) (threshold : N) : Prop :=
  (exists ks, NoDup ks /\ threshold <= N.of_nat (length ks) /\
     forall pk, In pk ks -> In pk known /\ attested_by pk_parse schnorr digest t pk) /\
  (forall pk sg, In (pk, sg) (ctx_atts t) ->
     In pk known /\ pk_parse pk = true /\ schnorr pk digest sg = true).
