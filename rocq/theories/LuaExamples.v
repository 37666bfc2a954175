(** Cases and counterexamples for C88. *)
From Coq Require Import NArith List Bool Lia.
From stdpp Require Import base option list.
From Verif Require Import Base CodecModel LuaModel LuaSpec LuaProofs.
Import ListNotations.
Open Scope N_scope.

(** A contract that reads the key it is given as its parameter, then the key 9, and stores
    under 9 what it read first with a byte added. *)
Definition counter (st : nat * bytes) (input : bytes) : resumed (nat * bytes) :=
  match st with
  | (0%nat, _) => LYield [LStr input] (1%nat, [])
  | (1%nat, _) => LYield [LNum [57]] (2%nat, input)
  | (_, v) => LReturn [LTable [(LStr [57], LStr (v ++ [1])); (LStr [8], LNum [49])]]
  end.

Lemma counter_proper : proper_tables counter.
Proof.
  intros [[|[|n]] v] i t H; cbn in H; try discriminate. injection H as <-.
  intros [|[|a]] [|[|b]] s x y A B; cbn in A, B; try reflexivity; try congruence.
  all: first [destruct a; discriminate | destruct b; discriminate].
Qed.

Lemma counter_case :
  asks counter (0%nat, []) [7] [([7], [5; 5]); ([57], [])] ((2%nat, [5; 5]), []) /\
  counter (2%nat, [5; 5]) [] = LReturn [LTable [(LStr [57], LStr [5; 5; 1]); (LStr [8], LNum [49])]] /\
  text_table [(LStr [57], LStr [5; 5; 1]); (LStr [8], LNum [49])] [([57], [5; 5; 1]); ([8], [49])] /\
  run counter 10 (Some (0%nat, [])) [7] true [(Value [5; 5], true); (Value [], true)] =
  (Finished, [ALock [7]; ALock [57]; AReport (Updates [([57], [5; 5; 1]); ([8], [49])])]).
Proof.
  split; [|split; [|split]].
  - eapply asks_one; [reflexivity|reflexivity|]. eapply asks_one; [reflexivity|reflexivity|]. apply asks_none.
  - reflexivity.
  - split.
    + constructor; [split; reflexivity|]. constructor; [split; reflexivity|]. constructor.
    + cbn. apply NoDup_ListNoDup. repeat constructor; cbn; intuition discriminate.
  - reflexivity.
Qed.

Lemma wounded_case :
  run counter 10 (Some (0%nat, [])) [7] true [(Value [5; 5], true); (ShardError true, true)] =
  (Finished, [ALock [7]; ALock [57]; AReport (Failed Wounded)]).
Proof. reflexivity. Qed.

(** return {"x"} *)
Notation array := (fun (_ : unit) (_ : bytes) => LReturn (L := unit) [LTable [(LNum [49], LStr [120])]]).
Lemma dies_case : proper_tables array /\ forall fuel param issued l,
  run array (S fuel) (Some tt) param issued l = (Dead, []).
Proof.
  split.
  - intros st i t [= <-] [|[|a]] [|[|b]] s v w A B; cbn in A, B; try discriminate; first [destruct a; discriminate | destruct b; discriminate].
  - intros fuel param issued l. unfold run, schedule, epilogue. cbn. rewrite on_locks_still by discriminate. reflexivity.
Qed.

(** return {["1.5"] = "a", [1.5] = "b"}, the string coming first. *)
Notation both := (fun (_ : unit) (_ : bytes) =>
  LReturn (L := unit) [LTable [(LStr [49; 46; 53], LStr [97]); (LNum [49; 46; 53], LStr [98])]]).
Lemma both_walk fuel u : u <> [] -> (forall e, In e u -> fst e = [49; 46; 53]) ->
  walk fuel [(LStr [49; 46; 53], LStr [97]); (LNum [49; 46; 53], LStr [98])] 1 u = WOn.
Proof.
  revert u. induction fuel as [|f IH]; intros u N K; [reflexivity|]. cbn [walk nth_error to_text].
  cbn [index_of]. rewrite bool_decide_eq_true_2 by reflexivity.
  replace (emplace u [49; 46; 53] [98]) with u; [now apply IH|].
  unfold emplace. destruct u as [|e u]; [now destruct N|]. cbn [existsb].
  rewrite bool_decide_eq_true_2 by (apply K; now left). reflexivity.
Qed.
Lemma lost_case : proper_tables both /\ forall fuel param issued l,
  run both fuel (Some tt) param issued l = (Lost, []).
Proof.
  split.
  - intros st i t [= <-] [|[|a]] [|[|b]] s v w A B; cbn in A, B; try discriminate; try reflexivity.
    all: first [destruct a; discriminate | destruct b; discriminate].
  - intros fuel param issued l. unfold run, schedule, epilogue.
    replace (walk fuel _ 0 []) with WOn; [cbv beta iota; rewrite on_locks_still by discriminate; reflexivity|].
    symmetry. destruct fuel as [|f]; [reflexivity|]. cbn [walk nth_error to_text index_of].
    rewrite bool_decide_eq_true_2 by reflexivity. apply both_walk; [discriminate|].
    intros e [<-|[]]. reflexivity.
Qed.

(** return {"a", ["1"] = "b"}: the second entry is lost. *)
Notation mixed := (fun (_ : unit) (_ : bytes) =>
  LReturn (L := unit) [LTable [(LNum [49], LStr [97]); (LStr [49], LStr [98])]]).
Lemma dropped_case param issued l :
  run mixed 10 (Some tt) param issued l = (Finished, [AReport (Updates [([49], [97])])]).
Proof.
  unfold run, schedule, epilogue.
  change (walk 10 [(LNum [49], LStr [97]); (LStr [49], LStr [98])] 0 []) with (WResult (Updates [([49], [97])])).
  cbv beta iota. rewrite on_locks_still by discriminate. reflexivity.
Qed.

Lemma readonly_case : run counter 10 (Some (0%nat, [])) [7] (write_lock_issued true true) [] =
  (Finished, [AReport (Failed InternalError)]).
Proof. reflexivity. Qed.

Lemma check_sig_case :
  let parse := fun k : bytes => true in let verify := fun (k s h : bytes) => bool_decide (h = [42]) in
  let sha := fun m : bytes => m in
  check_sig parse verify sha [LStr (repeat 1 32); LStr (repeat 2 64); LStr [42]] = true /\
  check_sig parse verify sha [LStr (repeat 1 32); LStr (repeat 2 64); LStr [43]] = false.
Proof. split; vm_compute; reflexivity. Qed.
