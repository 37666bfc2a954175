(** What C88 says. *)
From Coq Require Import NArith List Bool.
From stdpp Require Import base option list.
From Verif Require Import Base CodecModel LuaModel.
Import ListNotations.
Open Scope N_scope.

(** A table whose keys are strings and whose values are strings or numbers: what it maps to
    what. *)
Definition text_table (t : list (lval * lval)) (m : list (bytes * bytes)) : Prop :=
  Forall2 (fun e d => fst e = LStr (fst d) /\ to_text (snd e) = Some (snd d)) t m /\ NoDup (map fst m).

Definition has_number_key (t : list (lval * lval)) : Prop := Exists (fun e => exists n, fst e = LNum n) t.

(** Keys of tables are distinct. *)
Definition lua_table (t : list (lval * lval)) : Prop :=
  forall i j s v w, nth_error t i = Some (LStr s, v) -> nth_error t j = Some (LStr s, w) -> i = j.

(** The contract, resumed with [input], asks for the keys of [trace] one after the other and
    gets the values of [trace]; then it is in the state and is given the input of [last]. *)
Inductive asks {L} (resume : L -> bytes -> resumed L) : L -> bytes -> list (bytes * bytes) -> L * bytes -> Prop :=
| asks_none st input : asks resume st input [] (st, input)
| asks_one st input v k st' w trace last :
    resume st input = LYield [v] st' -> to_text v = Some k -> asks resume st' w trace last ->
    asks resume st input ((k, w) :: trace) last.

(** How a run ends there: [issued] is whether a lock could be asked for, [later] the answer to
    it; [denied] is the key of a lock that was not granted. *)
Inductive ends {L} (resume : L -> bytes -> resumed L) :
  L * bytes -> bool -> option lock_answer -> list bytes -> run_result -> Prop :=
| e_updates st i b a t m : resume st i = LReturn [LTable t] -> text_table t m ->
    ends resume (st, i) b a [] (Updates m)
| e_result_key st i b a t : resume st i = LReturn [LTable t] ->
    Exists (fun e => to_text (fst e) = None) t ->
    ends resume (st, i) b a [] (Failed ResultKeyType)
| e_result_value st i b a t : resume st i = LReturn [LTable t] ->
    Exists (fun e => to_text (snd e) = None) t ->
    ends resume (st, i) b a [] (Failed ResultValueType)
| e_number_key st i b a t r : resume st i = LReturn [LTable t] -> has_number_key t ->
    ends resume (st, i) b a [] r
| e_result_type st i b a v : resume st i = LReturn [v] -> (forall t, v <> LTable t) ->
    ends resume (st, i) b a [] (Failed ResultType)
| e_result_count st i b a vs : resume st i = LReturn vs -> length vs <> 1%nat ->
    ends resume (st, i) b a [] (Failed ResultCount)
| e_exec st i b a : resume st i = LFail -> ends resume (st, i) b a [] (Failed ExecError)
| e_yield_count st i b a vs st' : resume st i = LYield vs st' -> length vs <> 1%nat ->
    ends resume (st, i) b a [] (Failed YieldCount)
| e_yield_type st i b a v st' : resume st i = LYield [v] st' -> to_text v = None ->
    ends resume (st, i) b a [] (Failed YieldType)
| e_not_issued st i a v k st' : resume st i = LYield [v] st' -> to_text v = Some k ->
    ends resume (st, i) false a [] (Failed InternalError)
| e_wounded st i v k st' : resume st i = LYield [v] st' -> to_text v = Some k ->
    ends resume (st, i) true (Some (ShardError true)) [k] (Failed Wounded)
| e_lock st i a v k st' : resume st i = LYield [v] st' -> to_text v = Some k ->
    a = BrokerError \/ a = ShardError false ->
    ends resume (st, i) true (Some a) [k] (Failed LockError).

(** The contract returns proper tables. *)
Definition proper_tables {L} (resume : L -> bytes -> resumed L) : Prop :=
  forall st i t, resume st i = LReturn [LTable t] -> lua_table t.

(** A run after the answers [l] (each with whether the next lock could be asked for), from the
    contract's state [st] with its parameter [input], [issued] telling whether its first lock
    could be asked for: it asked for the contract's keys one after the other, resumed the
    contract with the answers, and either waits for an answer, or reported once and last,
    for a reason, or is gone. *)
Definition explained {L} (resume : L -> bytes -> resumed L) (fuel : nat) (st : L) (input : bytes) (issued : bool)
    (l : list (lock_answer * bool)) (s : rstate L) (acts : list act) : Prop :=
  exists trace last,
    asks resume st input trace last /\
    map (fun e => Value (snd e)) trace = firstn (length trace) (map fst l) /\
    let flag := nth (length trace) (issued :: map snd l) false in
    let later := nth_error (map fst l) (length trace) in
    match s with
    | Waiting st' => exists v k, resume (fst last) (snd last) = LYield [v] st' /\ to_text v = Some k /\
        flag = true /\ later = None /\ acts = map ALock (map fst trace ++ [k])
    | Finished => exists denied r, ends resume last flag later denied r /\
        acts = map ALock (map fst trace ++ denied) ++ [AReport r]
    | Dead => acts = map ALock (map fst trace) /\
        (resume (fst last) (snd last) = LDies \/
         exists t, resume (fst last) (snd last) = LReturn [LTable t] /\ has_number_key t)
    | Lost => acts = map ALock (map fst trace) /\
        (resume (fst last) (snd last) = LForever \/
         exists t, resume (fst last) (snd last) = LReturn [LTable t] /\ (has_number_key t \/ (fuel <= length t)%nat))
    end.
