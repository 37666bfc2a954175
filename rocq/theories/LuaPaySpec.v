(** Vocabulary for property C95. *)
From Coq Require Import NArith ZArith List.
From stdpp Require Import base option list.
From Verif Require Import Base LuaPayModel.
Import ListNotations.
Open Scope N_scope.

(** What an account holds: 8 bytes of balance and 8 bytes of sequence number are stored under
    the account's name, which follows the letters "account_". *)
Definition account (a : bytes) : bytes := [97; 99; 99; 111; 117; 110; 116; 95] ++ a.
Definition balance (db : bytes -> bytes) (a : bytes) : N := le_value (take 8 (db (account a))).
Definition sequence (db : bytes -> bytes) (a : bytes) : N :=
  le_value (take 8 (drop 8 (db (account a)))).

(** An account in good order: nothing stored, or two numbers below 2^63. *)
Definition sound (db : bytes -> bytes) (a : bytes) : Prop :=
  db (account a) = [] \/
  (length (db (account a)) = 16%nat /\ Forall is_byte (db (account a)) /\
   balance db a < 2 ^ 63 /\ sequence db a < 2 ^ 63).

(** The parts of a request for a payment: 32 bytes payer, 32 bytes payee, value, sequence
    number, 64 bytes of signature. *)
Definition payer (p : bytes) : bytes := take 32 p.
Definition payee (p : bytes) : bytes := take 32 (drop 32 p).
Definition value (p : bytes) : N := le_value (take 8 (drop 64 p)).
Definition seq_no (p : bytes) : N := le_value (take 8 (drop 72 p)).
Definition signature (p : bytes) : bytes := take 64 (drop 80 p).
(** What is signed: payee, value and sequence number. *)
Definition signed_part (p : bytes) : bytes := take 48 (drop 32 p).

Definition request (p : bytes) : Prop := Forall is_byte p /\ (144 <= length p)%nat.

(** The money of these accounts. *)
Definition money (db : bytes -> bytes) (l : list bytes) : N :=
  fold_right (fun a n => balance db a + n) 0 l.

(** The payer signed. *)
Definition authorised (parse : bytes -> bool) (verify : bytes -> bytes -> bytes -> bool)
    (sha256 : bytes -> bytes) (p : bytes) : Prop :=
  parse (payer p) = true /\ verify (payer p) (signature p) (sha256 (signed_part p)) = true.

(** Payments between these accounts, none to the payer itself and none with the last sequence
    number. *)
Definition among (l : list bytes) (p : bytes) : Prop :=
  request p /\ payer p ∈ l /\ payee p ∈ l /\ payer p <> payee p /\ seq_no p < 2 ^ 63 - 1.

(** A request that does not have the last sequence number. *)
Definition fresh (p : bytes) : Prop := request p /\ seq_no p < 2 ^ 63 - 1.

(** A wallet that knows what its account holds. *)
Definition in_sync (db : bytes -> bytes) (w : account_wallet) : Prop :=
  balance db (aw_key w) = aw_balance w /\ sequence db (aw_key w) = aw_seq w.
