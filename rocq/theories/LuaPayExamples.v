(** Payments, for property C95. *)
From Coq Require Import NArith ZArith List Bool Lia.
From stdpp Require Import base option list.
From Verif Require Import Base LuaModel LuaPayModel LuaPaySpec.
Import ListNotations.
Open Scope N_scope.

(** Two accounts and requests; every signature is good. *)
Notation ann := (repeat 1 32).
Notation bob := (repeat 2 32).
Definition req (from to : bytes) (v q : N) : bytes :=
  from ++ to ++ le_bytes 8 v ++ le_bytes 8 q ++ repeat 0 64.
Definition ex_db (a b : N) (k : bytes) : bytes :=
  if bool_decide (k = account ann) then le_bytes 8 a ++ le_bytes 8 4
  else if bool_decide (k = account bob) then le_bytes 8 b ++ le_bytes 8 0 else [].
Notation yes := (fun _ => true).
Notation always := (fun _ _ _ => true).
Notation same := (fun b : bytes => b).
Notation ex_pay := (pay yes always same).
Notation ex_steps := (pay_steps yes always same).

Definition byteb (b : N) : bool := b <? 256.
Lemma bytes_by l : forallb byteb l = true -> Forall is_byte l.
Proof.
  intros H. apply Forall_forall. intros x Hx%elem_of_list_In.
  apply N.ltb_lt. by apply (proj1 (forallb_forall byteb l) H).
Qed.

Definition requestb (p : bytes) : bool := forallb byteb p && (144 <=? length p)%nat.
Lemma request_by p : requestb p = true -> request p.
Proof.
  intros [H1 H2]%andb_true_iff. split; [by apply bytes_by|by apply Nat.leb_le].
Qed.

Lemma ex_req : request (req ann bob 3 4).
Proof. apply request_by. vm_compute. reflexivity. Qed.

Definition soundb (db : bytes -> bytes) (a : bytes) : bool :=
  (length (db (account a)) =? 16)%nat && forallb byteb (db (account a)) &&
  (balance db a <? 2 ^ 63) && (sequence db a <? 2 ^ 63).
Lemma sound_by db a : soundb db a = true -> sound db a.
Proof.
  intros [[[H1 H2]%andb_true_iff H3]%andb_true_iff H4]%andb_true_iff. right.
  split_and!; [by apply Nat.eqb_eq|by apply bytes_by|by apply N.ltb_lt|by apply N.ltb_lt].
Qed.
Lemma ex_sound : sound (ex_db 10 20) ann /\ sound (ex_db 10 20) bob.
Proof. split; apply sound_by; vm_compute; reflexivity. Qed.

Lemma ex_parts : payer (req ann bob 3 4) = ann /\ payee (req ann bob 3 4) = bob /\
  value (req ann bob 3 4) = 3 /\ seq_no (req ann bob 3 4) = 4.
Proof. vm_compute. split_and!; reflexivity. Qed.

Lemma ex_paid : pay_run yes always same (ex_db 10 20) (req ann bob 3 4) =
  ([account ann; account bob],
   Updates [(account ann, le_bytes 8 7 ++ le_bytes 8 5);
            (account bob, le_bytes 8 23 ++ le_bytes 8 0)]).
Proof. vm_compute. reflexivity. Qed.

Lemma ex_among : Forall (among [ann; bob]) [req ann bob 3 4; req bob ann 9 0; req ann bob 100 5].
Proof.
  repeat constructor; try (apply request_by; vm_compute; reflexivity); try (vm_compute; reflexivity);
    try (vm_compute; by constructor); try (vm_compute; by repeat constructor);
    vm_compute; discriminate.
Qed.
Lemma ex_nodup : NoDup [ann; bob].
Proof. apply NoDup_cons. split; [|apply NoDup_singleton]. by intros ?%elem_of_list_singleton. Qed.
Lemma ex_money : money (ex_db 10 20) [ann; bob] = 30 /\
  balance (ex_steps (ex_db 10 20) [req ann bob 3 4; req bob ann 9 0; req ann bob 100 5]) ann = 16.
Proof. vm_compute. split; reflexivity. Qed.

(** Paying oneself, three times with the same request. *)
Lemma ex_self : balance (ex_steps (ex_db 10 20) [req ann ann 5 4; req ann ann 5 4; req ann ann 5 4])
  ann = 25.
Proof. vm_compute. reflexivity. Qed.

(** After the last sequence number, old requests are good again. *)
Lemma ex_replay : let p := req ann bob 1 4 in let p' := req ann bob 1 (2 ^ 63 - 1) in
  fresh p /\ payer p <> payee p /\ request p' /\
  (exists u, ex_pay (ex_db 10 20) p = Updates u) /\
  (exists u, ex_pay (ex_steps (ex_db 10 20) [p; p']) p = Updates u).
Proof.
  intros p p'. split_and!.
  - split; [apply request_by|]; vm_compute; reflexivity.
  - vm_compute. discriminate.
  - apply request_by. vm_compute. reflexivity.
  - eexists. vm_compute. reflexivity.
  - eexists. vm_compute. reflexivity.
Qed.

(** An account that holds 2^63 or more cannot pay. *)
Lemma ex_frozen : let db := ex_db 10 (2 ^ 63 - 1) in let p := req ann bob 1 4 in
  let q := req bob ann 1 0 in
  sound db ann /\ sound db bob /\ (exists u, ex_pay db p = Updates u) /\
  request q /\ authorised yes always same q /\
  sequence (ex_steps db [p]) bob = seq_no q /\ value q <= balance (ex_steps db [p]) bob /\
  ex_pay (ex_steps db [p]) q = Failed ExecError.
Proof.
  intros db p q. split_and!.
  - apply sound_by. vm_compute. reflexivity.
  - apply sound_by. vm_compute. reflexivity.
  - eexists. vm_compute. reflexivity.
  - apply request_by. vm_compute. reflexivity.
  - split; reflexivity.
  - vm_compute. reflexivity.
  - vm_compute. discriminate.
  - vm_compute. reflexivity.
Qed.

(** A value of 2^63: the run succeeds. *)
Lemma ex_large : (exists u, ex_pay (ex_db 10 20) (req ann bob (2 ^ 63) 4) = Updates u) /\
  request (req ann bob (2 ^ 63) 4) /\ value (req ann bob (2 ^ 63) 4) = 2 ^ 63.
Proof.
  split_and!; [eexists; vm_compute; reflexivity|apply request_by; vm_compute; reflexivity|
    vm_compute; reflexivity].
Qed.

(** A wallet. *)
Lemma ex_wallet : in_sync (ex_db 10 20) (AccountWallet ann 10 4) /\
  wallet_pay same (fun _ => repeat 0 64) (AccountWallet ann 10 4) bob 3 = Some (req ann bob 3 4).
Proof. vm_compute. split_and!; reflexivity. Qed.
