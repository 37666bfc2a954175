(** C88: a contract's run in Lua asks for the locks the contract asks for, gives it the values,
    and reports once what it returned or why it failed. *)
From Coq Require Import NArith List Bool.
From stdpp Require Import base option list.
From Verif Require Import Base CodecModel LuaModel LuaSpec LuaProofs LuaExamples.
Import ListNotations.
Open Scope N_scope.

(** Whatever the interpreter does and whatever the answers are. *)
Theorem C88_explained_partial : forall (L : Type) (resume : L -> bytes -> resumed L), proper_tables resume ->
  forall fuel st input issued l s acts,
  run resume fuel (Some st) input issued l = (s, acts) -> explained resume fuel st input issued l s acts.
Proof. exact @run_explained. Qed.
Print Assumptions C88_explained_partial.
Example C88_explained_ex : proper_tables counter /\
  run counter 10 (Some (0%nat, [])) [7] true [(Value [5; 5], true); (ShardError true, true)] =
  (Finished, [ALock [7]; ALock [57]; AReport (Failed Wounded)]).
Proof. exact (conj counter_proper wounded_case). Qed.

(** A contract that gets its locks and returns a table with strings as keys has exactly this
    table reported. *)
Theorem C88_returns : forall (L : Type) (resume : L -> bytes -> resumed L) fuel st input trace last t m,
  asks resume st input trace last ->
  resume (fst last) (snd last) = LReturn [LTable t] -> text_table t m -> (length t < fuel)%nat ->
  run resume fuel (Some st) input true (map (fun e => (Value (snd e), true)) trace) =
  (Finished, map ALock (map fst trace) ++ [AReport (Updates m)]).
Proof. exact @run_returns. Qed.
Print Assumptions C88_returns.
Example C88_returns_ex :
  asks counter (0%nat, []) [7] [([7], [5; 5]); ([57], [])] ((2%nat, [5; 5]), []) /\
  counter (2%nat, [5; 5]) [] = LReturn [LTable [(LStr [57], LStr [5; 5; 1]); (LStr [8], LNum [49])]] /\
  text_table [(LStr [57], LStr [5; 5; 1]); (LStr [8], LNum [49])] [([57], [5; 5; 1]); ([8], [49])] /\
  run counter 10 (Some (0%nat, [])) [7] true [(Value [5; 5], true); (Value [], true)] =
  (Finished, [ALock [7]; ALock [57]; AReport (Updates [([57], [5; 5; 1]); ([8], [49])])]).
Proof. exact counter_case. Qed.

(** What is not compiled code of Lua is reported, and nothing else is done. *)
Theorem C88_load : forall (L : Type) (resume : L -> bytes -> resumed L) fuel input issued l,
  run resume fuel None input issued l = (Finished, [AReport (Failed FunctionLoad)]).
Proof. exact @run_unloaded. Qed.
Print Assumptions C88_load.

(** check_sig lets the contract go on exactly if its arguments are a public key, a signature
    and a message of which the signature is one by the key. *)
Theorem C88_check_sig : forall parse verify sha args, check_sig parse verify sha args = true <->
  exists key sig msg, map to_text args = [Some key; Some sig; Some msg] /\
    length key = 32%nat /\ length sig = 64%nat /\ parse key = true /\ verify key sig (sha msg) = true.
Proof. exact check_sig_iff. Qed.
Print Assumptions C88_check_sig.
Example C88_check_sig_ex :
  let parse := fun k : bytes => true in let verify := fun (k s h : bytes) => bool_decide (h = [42]) in
  let sha := fun m : bytes => m in
  check_sig parse verify sha [LStr (repeat 1 32); LStr (repeat 2 64); LStr [42]] = true /\
  check_sig parse verify sha [LStr (repeat 1 32); LStr (repeat 2 64); LStr [43]] = false.
Proof. exact check_sig_case. Qed.

(** Refuted: no contract ends the agent. This one returns {"x"}. *)
Theorem C88_survives_refuted : exists (resume : unit -> bytes -> resumed unit), proper_tables resume /\
  (exists v, resume tt [] = LReturn [LTable [(LNum [49], LStr v)]]) /\
  forall fuel param issued l, run resume (S fuel) (Some tt) param issued l = (Dead, []).
Proof. exact (ex_intro _ array (conj (proj1 dies_case) (conj (ex_intro _ [120] eq_refl) (proj2 dies_case)))). Qed.
Print Assumptions C88_survives_refuted.

(** Refuted: the run of a contract that returned ends. This one returns
    {["1.5"] = "a", [1.5] = "b"}. *)
Theorem C88_ends_refuted : exists (resume : unit -> bytes -> resumed unit), proper_tables resume /\
  (exists t, resume tt [] = LReturn [LTable t]) /\
  forall fuel param issued l, run resume fuel (Some tt) param issued l = (Lost, []).
Proof. exact (ex_intro _ both (conj (proj1 lost_case) (conj (ex_intro _ _ eq_refl) (proj2 lost_case)))). Qed.
Print Assumptions C88_ends_refuted.

(** Refuted: all that a contract returned is reported. *)
Theorem C88_dropped_refuted : forall param issued l,
  run (fun (_ : unit) (_ : bytes) => LReturn (L := unit) [LTable [(LNum [49], LStr [97]); (LStr [49], LStr [98])]])
    10 (Some tt) param issued l = (Finished, [AReport (Updates [([49], [97])])]).
Proof. exact dropped_case. Qed.
Print Assumptions C88_dropped_refuted.

(** Refuted: contracts can be run read-only. One that asks for a key always fails, because its
    locks are asked for writing. *)
Theorem C88_readonly_refuted : forall (L : Type) (resume : L -> bytes -> resumed L) fuel st input broker v st' k l,
  resume st input = LYield [v] st' -> to_text v = Some k ->
  run resume fuel (Some st) input (write_lock_issued true broker) l = (Finished, [AReport (Failed InternalError)]).
Proof. exact @run_readonly. Qed.
Print Assumptions C88_readonly_refuted.
Example C88_readonly_ex : run counter 10 (Some (0%nat, [])) [7] (write_lock_issued true true) [] =
  (Finished, [AReport (Failed InternalError)]).
Proof. exact readonly_case. Qed.
