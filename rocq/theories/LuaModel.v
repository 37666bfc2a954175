(** Model of the Lua runner: src/parsec/agent/runners/lua/impl.cpp.

    Simplifications, valid for the whole file:
    - the Lua interpreter is an arbitrary function that resumes a suspended contract with one
      string and says how that ended; what it keeps is the abstract state;
    - a value of Lua is a string, a number (its text), a table (its entries in the order
      lua_next visits them, keys distinct, no nil values), or something else;
    - memory is not exhausted (lua_pushlstring succeeds);
    - how the agent answers lock requests is C75 and C76; here it is arbitrary. *)
From Coq Require Import NArith List Bool.
From stdpp Require Import base option list.
From Verif Require Import Base CodecModel.
Import ListNotations.
Open Scope N_scope.

Inductive lval :=
| LStr (s : bytes)
| LNum (s : bytes)
| LTable (t : list (lval * lval))
| LOther.

(** get_stack_string, impl.cpp:126-136: lua_isstring holds of strings and numbers, and
    lua_tolstring gives a number's text, and puts it in the number's place. *)
Definition to_text (v : lval) : option bytes :=
  match v with
  | LStr s | LNum s => Some s
  | _ => None
  end.

(** runner::interface::error_code, runners/interface.hpp:24-47. *)
Inductive lua_error :=
| ResultValueType | ResultKeyType | ResultType | ResultCount | ExecError | FunctionLoad
| InternalError | YieldCount | YieldType | LockError | Wounded.

(** runner::interface::run_return_type; the updates are a map (assoc list without repeated
    keys, in the order of insertion). *)
Inductive run_result := Updates (u : list (bytes * bytes)) | Failed (e : lua_error).

(** The position of a key in a table. *)
Fixpoint index_of (t : list (lval * lval)) (s : bytes) : option nat :=
  match t with
  | [] => None
  | (LStr k, _) :: r => if bool_decide (k = s) then Some O else option_map S (index_of r s)
  | _ :: r => option_map S (index_of r s)
  end.

(** results.emplace: an entry that is there stays. *)
Definition emplace (u : list (bytes * bytes)) (k v : bytes) : list (bytes * bytes) :=
  if existsb (fun e => bool_decide (fst e = k)) u then u else u ++ [(k, v)].

(** How the loop over the table ends: a result, or lua_next does not find the key it is given
    and raises an error outside of any protected call, which ends the process; or not
    within [fuel] rounds. *)
Inductive walked := WResult (r : run_result) | WPanic | WOn.

(** The loop of contract_epilogue, impl.cpp:104-120, from the entry number [i] on. The key on
    the stack has become a string when lua_next looks for it. *)
Fixpoint walk (fuel : nat) (t : list (lval * lval)) (i : nat) (u : list (bytes * bytes)) : walked :=
  match fuel with
  | O => WOn
  | S f =>
      match nth_error t i with
      | None => WResult (Updates u)
      | Some (k, v) =>
          match to_text k with
          | None => WResult (Failed ResultKeyType)
          | Some kb =>
              match to_text v with
              | None => WResult (Failed ResultValueType)
              | Some vb =>
                  match index_of t kb with
                  | None => WPanic
                  | Some j => walk f t (S j) (emplace u kb vb)
                  end
              end
          end
      end
  end.

(** How resuming a contract ends. [LDies]: the interpreter ends the process (os.exit);
    [LForever]: it does not come back. *)
Inductive resumed (L : Type) :=
| LYield (vs : list lval) (st : L) | LReturn (vs : list lval) | LFail | LDies | LForever.
Arguments LYield {L}. Arguments LReturn {L}. Arguments LFail {L}. Arguments LDies {L}.
Arguments LForever {L}.

(** What a run does: it asks for a lock (always for writing, impl.cpp:155), or reports. *)
Inductive act := ALock (k : bytes) | AReport (r : run_result).

(** Where it is afterwards. *)
Inductive rstate (L : Type) := Waiting (st : L) | Finished | Dead | Lost.
Arguments Waiting {L}. Arguments Finished {L}. Arguments Dead {L}. Arguments Lost {L}.

(** broker::interface::try_lock_return_type. *)
Inductive lock_answer := Value (v : bytes) | BrokerError | ShardError (wounded : bool).

Section Runner.
Context {L : Type}.
(** lua_resume with one argument. *)
Variable resume : L -> bytes -> resumed L.

(** contract_epilogue, impl.cpp:88-124. [fuel] bounds the loop. *)
Definition epilogue (fuel : nat) (vs : list lval) : rstate L * list act :=
  match vs with
  | [LTable t] => match walk fuel t 0 [] with
                  | WResult r => (Finished, [AReport r])
                  | WPanic => (Dead, [])
                  | WOn => (Lost, [])
                  end
  | [_] => (Finished, [AReport (Failed ResultType)])
  | _ => (Finished, [AReport (Failed ResultCount)])
  end.

(** schedule_contract, impl.cpp:138-172. [issued]: what m_try_lock_callback returns. *)
Definition schedule (fuel : nat) (st : L) (input : bytes) (issued : bool) : rstate L * list act :=
  match resume st input with
  | LYield [v] st' =>
      match to_text v with
      | None => (Finished, [AReport (Failed YieldType)])
      | Some k => if issued then (Waiting st', [ALock k])
                  else (Finished, [AReport (Failed InternalError)])
      end
  | LYield _ _ => (Finished, [AReport (Failed YieldCount)])
  | LFail => (Finished, [AReport (Failed ExecError)])
  | LReturn vs => epilogue fuel vs
  | LDies => (Dead, [])
  | LForever => (Lost, [])
  end.

(** handle_try_lock, impl.cpp:174-208, when the answer comes. *)
Definition on_lock (fuel : nat) (s : rstate L) (a : lock_answer * bool) : rstate L * list act :=
  match s with
  | Waiting st =>
      match fst a with
      | Value v => schedule fuel st v (snd a)
      | BrokerError | ShardError false => (Finished, [AReport (Failed LockError)])
      | ShardError true => (Finished, [AReport (Failed Wounded)])
      end
  | _ => (s, [])
  end.

Fixpoint on_locks (fuel : nat) (s : rstate L) (l : list (lock_answer * bool)) : rstate L * list act :=
  match l with
  | [] => (s, [])
  | a :: r => let (s1, a1) := on_lock fuel s a in
              let (s2, a2) := on_locks fuel s1 r in
              (s2, a1 ++ a2)
  end.

(** run, impl.cpp:44-86. [loaded]: what luaL_loadbufferx makes of the function's bytes (it
    takes compiled code only). *)
Definition run (fuel : nat) (loaded : option L) (param : bytes) (issued : bool)
    (l : list (lock_answer * bool)) : rstate L * list act :=
  match loaded with
  | None => (Finished, [AReport (Failed FunctionLoad)])
  | Some st => let (s1, a1) := schedule fuel st param issued in
               let (s2, a2) := on_locks fuel s1 l in
               (s2, a1 ++ a2)
  end.
End Runner.

(** The result of impl::do_try_lock_request for a write lock, agent/impl.cpp:197-220, for a
    run that is going on: refused when it is read-only, otherwise what the broker says. *)
Definition write_lock_issued (readonly broker : bool) : bool := if readonly then false else broker.

(** ** check_sig, impl.cpp:210-274 *)

Section CheckSig.
(** secp256k1_xonly_pubkey_parse; secp256k1_schnorrsig_verify; CSHA256. *)
Variable parse : bytes -> bool.
Variable verify : bytes -> bytes -> bytes -> bool.     (* public key, signature, hash *)
Variable sha256 : bytes -> bytes.

(** [true]: it returns; [false]: it raises an error in the contract. *)
Definition check_sig (args : list lval) : bool :=
  if negb (length args =? 3)%nat then false
  else if negb (forallb (fun v => match to_text v with Some _ => true | None => false end) args) then false
  else match mapM to_text args with
       | Some [key; sig; msg] =>
           if negb (length key =? 32)%nat then false
           else if negb (length sig =? 64)%nat then false
           else if negb (parse key) then false
           else verify key sig (sha256 msg)
       | _ => false
       end.
End CheckSig.
