(** Specification of the sentinels. *)
From Coq Require Import NArith List Bool.
From stdpp Require Import base decidable list.
From Verif Require Import Base CodecModel TxModel TxSpec ValidationModel ValidationSpec SentinelModel.
Import ListNotations.
Open Scope N_scope.

Section Spec.
  Variable sha : bytes -> hash.
  Variable pk_parse : N -> bool.
  Variable schnorr : N -> hash -> N -> bool.
  Variable pub_of : N -> N.
  Variable ssign : N -> hash -> N.

  (** [t] says what [tx] says: same identifier, inputs and outputs. *)
  Definition compact_of (tx : full_tx) (t : compact_tx) : Prop :=
    ctx_id t = ctx_id (to_compact sha tx) /\
    ctx_inputs t = ctx_inputs (to_compact sha tx) /\
    ctx_outputs t = ctx_outputs (to_compact sha tx).

  (** Signatures made with a key verify, and the public key of a key parses. *)
  Definition keys_work : Prop :=
    forall sk m, pk_parse (pub_of sk) = true /\ schnorr (pub_of sk) m (ssign sk m) = true.

  (** The peers are sentinels: [others] are their states, and an answer to a request for
      [tx] is what such a sentinel makes of it. *)
  Definition peers_honest (others : list sentinel) (tx : full_tx)
      (ask : nat -> nat -> option (option (N * N))) : Prop :=
    forall n k a, ask n k = Some (Some a) ->
      exists o, nth_error others k = Some o /\
        validate_transaction sha pk_parse schnorr pub_of ssign o tx = VAttest a.
  (** The public keys of sentinels. *)
  Definition public_keys (l : list sentinel) : list N :=
    concat (map (fun s => match se_key s with Some sk => [pub_of sk] | None => [] end) l).

  (** The random numbers never leave out a peer for ever. *)
  Definition fair (peers : nat) (draws : nat -> nat) : Prop :=
    forall n k, (k < peers)%nat -> exists m, (n <= m)%nat /\ draws m = k.
  Definition in_bounds (peers : nat) (draws : nat -> nat) : Prop := forall n, (draws n < peers)%nat.
  (** Every request is sent, sooner or later, and answered with the attestation of a key
      that no other peer has. *)
  Definition peers_answer (peers : nat) (ask : nat -> nat -> option (option (N * N))) (own : list N) : Prop :=
    exists key : nat -> N,
      (forall n k, (k < peers)%nat -> exists sg, ask n k = Some (Some (key k, sg))) /\
      (forall j k, (j < peers)%nat -> (k < peers)%nat -> key j = key k -> j = k) /\
      (forall k, (k < peers)%nat -> ~ In (key k) own).

  (** A key whose owner signs only what it has validated. *)
  Definition honest_key (pk : N) : Prop :=
    forall h sg, schnorr pk h sg = true ->
      exists tx, typed_full_tx tx /\ valid_tx sha pk_parse schnorr tx /\ h = ctx_hash sha (to_compact sha tx).

  (** A hash has 256 bits. *)
  Definition sha_fits : Prop := forall b, sha b < 2 ^ 256.
End Spec.

(** The shard at [k] holds the input [h]. *)
Definition holds_input (shards : list ((N * N) * bool)) (k : nat) (h : hash) : Prop :=
  exists r c, nth_error shards k = Some (r, c) /\ in_range r h = true.
(** Each hash belongs to one shard. *)
Definition disjoint_shards (shards : list ((N * N) * bool)) : Prop :=
  forall j k h, holds_input shards j h -> holds_input shards k h -> j = k.
