(** What C84 and C85 say. *)
From Coq Require Import NArith List Bool.
From stdpp Require Import gmap.
From Verif Require Import Base CodecModel MsgModel EvmLogModel.
Import ListNotations.
Open Scope N_scope.

(** ** Keys *)

(** Addresses have 160 bits, the other names 256, ticket numbers 64. *)
Definition place_ok (p : place) : Prop :=
  match p with
  | PAccount a | PCode a => a < 2 ^ 160
  | PStorage a k => a < 2 ^ 160 /\ k < 2 ^ 256
  | PReceipt i => i < 2 ^ 256
  | PTicket tn => tn < 2 ^ 64
  | PEvents a tn => a < 2 ^ 160 /\ tn < 2 ^ 64
  end.

Definition is_sha (sha : bytes -> N) : Prop := forall b, sha b < 2 ^ 256.
(** What is hashed: a ticket number (8 bytes), or an address and a ticket number (28). *)
Definition hashed (x : bytes) : Prop :=
  (length x = 8%nat \/ length x = 28%nat) /\ Forall is_byte x.
(** Two such inputs with the same hash. *)
Definition sha_collision (sha : bytes -> N) : Prop :=
  exists x y, hashed x /\ hashed y /\ x <> y /\ sha x = sha y.
(** A transaction's ID (a Keccak hash) that is also the SHA-256 hash of such an input. *)
Definition id_collision (sha : bytes -> N) (p : place) : Prop :=
  match p with PReceipt i => exists x, hashed x /\ sha x = i | _ => False end.

(** ** Histories *)

Definition event_ok (e : elog) : Prop := dom c_evm_log e.

(** A committed transaction: its numbers have the sizes of their types, it emitted fewer
    than 2^64 events, and its other updates are not at places of events. *)
Definition committed_ok (c : committed) : Prop :=
  c_ticket c < 2 ^ 64 /\ c_txid c < 2 ^ 256 /\
  Forall event_ok (c_events c) /\ len (c_events c) < 2 ^ 64 /\
  Forall (fun u => place_ok (fst u) /\ match fst u with PEvents _ _ => False | _ => True end)
         (c_other c).

(** Tickets are used once (C41). *)
Definition history_ok (h : list committed) : Prop :=
  Forall committed_ok h /\ NoDup (map c_ticket h).

(** No two of the hashes involved are equal: SHA-256 has no collision among inputs of these
    sizes, and the ID of no transaction is the hash of one. *)
Definition no_clash (sha : bytes -> N) (h : list committed) : Prop :=
  is_sha sha /\ ~ sha_collision sha /\
  Forall (fun c => Forall (fun u => ~ id_collision sha (fst u)) (c_other c)) h.

(** ** Queries *)

(** An event of the transaction with this ticket number is one the query asks for: the
    block is in the range, the address is one of the addresses, and one of the event's
    topics is one of the topics. *)
Definition wants (q : query) (tn : N) (e : elog) : Prop :=
  q_from q <= tn <= q_to q /\ e_addr e ∈ q_addrs q /\ exists t, t ∈ e_topics e /\ t ∈ q_topics q.

#[global] Instance wants_dec q tn e : Decision (wants q tn e).
Proof.
  unfold wants. repeat apply and_dec; try apply _.
  destruct (decide (Exists (fun t => t ∈ q_topics q) (e_topics e))) as [H|H].
  - left. apply Exists_exists in H as (t & ? & ?). eauto.
  - right. intros (t & ? & ?). apply H, Exists_exists. eauto.
Defined.

(** The events of a history that the query asks for, in order, each as often as it was
    emitted, with ticket number and transaction. *)
Definition matching (q : query) (h : list committed) : list (elog * N * N) :=
  flat_map (fun c => map (fun e => (e, c_ticket c, c_txid c))
                         (filter (wants q (c_ticket c)) (c_events c))) h.

(** The sizes of the C++ types. *)
Definition query_sizes (q : query) : Prop :=
  Forall (fun a => a < 2 ^ 160) (q_addrs q) /\ q_from q < 2 ^ 64 /\ q_to q < 2 ^ 64.

(** What a shard answers when asked for a key: the empty value if it was never written. *)
Definition held (d : gmap bytes bytes) (k : bytes) : bytes :=
  match d !! k with Some v => v | None => [] end.

(** All the answers to the lock requests for these keys, in any order, are the values the
    shards hold. *)
Definition answers_from (d : gmap bytes bytes) (keys : list bytes) (l : list lock_answer) : Prop :=
  l ≡ₚ map (fun k => LValue (held d k)) keys.

(** All the answers, in any order, are the values held or errors. *)
Definition answers_or_errors (d : gmap bytes bytes) (keys : list bytes) (l : list lock_answer) : Prop :=
  exists l', l ≡ₚ l' /\ Forall2 (fun k a => a = LError \/ a = LValue (held d k)) keys l'.
Definition errors (l : list lock_answer) : nat :=
  length (List.filter (fun a => match a with LError => true | LValue _ => false end) l).

(** The run before the first answer. *)
Definition run0 : lrun := LRun [] 0 [].

(** ** Bloom filters *)

(** Bit [n] of the filter, counted from the least significant bit of its last byte. *)
Definition bloom_bit (b : bytes) (n : N) : bool :=
  N.testbit (nth (255 - N.to_nat (n / 8)) b 0) (n mod 8).

(** The low 11 bits of the pair of bytes at [i], first byte less significant. *)
Definition pair_le (h : bytes) (i : nat) : N := (nth i h 0 + 256 * nth (S i) h 0) mod 2048.
(** And first byte more significant, as Ethereum's yellow paper has it. *)
Definition pair_be (h : bytes) (i : nat) : N := (256 * nth i h 0 + nth (S i) h 0) mod 2048.

(** What a filter says about an entry, reading the pairs in one of the two ways. *)
Definition says (pair : bytes -> nat -> N) (keccak : bytes -> bytes) (bloom entry : bytes) : Prop :=
  forall i, i ∈ [0; 2; 4]%nat -> bloom_bit bloom (pair (keccak entry) i) = true.

(** Keccak has 32 bytes. *)
Definition is_keccak (keccak : bytes -> bytes) : Prop :=
  forall b, length (keccak b) = 32%nat /\ Forall is_byte (keccak b).

(** An address or topic of an event, in bytes. *)
Definition entry_of (e : elog) (entry : bytes) : Prop :=
  entry = be_bytes 20 (e_addr e) \/ exists t, t ∈ e_topics e /\ entry = be_bytes 32 t.
