(** Runs of an HTTP client, for property C94. JSON is whatever the response holds. *)
From stdpp Require Import base option list gmap.
From Coq Require Import NArith.
From Verif Require Import Base HttpModel HttpSpec.
Open Scope N_scope.

(** Three calls to two endpoints; the callback of the second one calls again, the third one
    fails once, the fourth one gets an error, the first one is never answered. *)
Notation ex_ins :=
  [ICall true; ICall true; ICall true; IData 1 [5]; IData 2 []; IData 1 [6];
   IMsg 1 (MDone 200) [true] true true; IMsg 2 MError [] true true; IData 3 [8];
   IMsg 3 (MDone 500) [] true true; IData 2 [7]; IMsg 2 (MDone 201) [] true true].

Lemma ex_run : http 2 (fun b => Some b) (ex_ins ++ [IDestroy true]) =
  [HCall 0; HSent 0 0; HCall 1; HSent 1 1; HCall 2; HSent 2 0; HData 1 [5]; HData 2 [];
   HData 1 [6]; HDone 1 200; HAnswer 1 (Some [5; 6]); HCall 3; HSent 3 1; HFailed 2; HSent 2 0;
   HData 3 [8]; HDone 3 500; HAnswer 3 None; HData 2 [7]; HDone 2 201; HAnswer 2 (Some [7]);
   HAnswer 0 None].
Proof. vm_compute. reflexivity. Qed.

Lemma ex_adds : Forall adds ex_ins.
Proof. repeat constructor. Qed.

Lemma ex_call : HCall 0%nat ∈ http 2 (fun b => Some b) (ex_ins ++ [IDestroy true]).
Proof. rewrite ex_run. left. Qed.

Lemma ex_failed k : http 2 (fun b => Some b) ex_ins !! k = Some (HFailed 2) -> (k < 20)%nat ->
  received 2 (take k (http 2 (fun b => Some b) ex_ins)) = [].
Proof.
  intros H Hk.
  do 20 (destruct k as [|k]; [first [vm_compute in H; discriminate H|vm_compute; reflexivity]|]).
  exfalso. revert Hk. clear. intros H. do 20 apply Nat.succ_lt_mono in H. by apply Nat.nlt_0_r in H.
Qed.

(** The first part of a response that broke off stays in front of the next one. *)
Lemma ex_stale : let h := http 1 (fun b => Some b)
    [ICall true; IData 0 [1]; IMsg 0 MError [] true true; IData 0 [2];
     IMsg 0 (MDone 200) [] true true] in
  answers 0 h = [Some [1; 2]] /\ body 0 h = [2].
Proof. vm_compute. split; reflexivity. Qed.

(** A transfer that cannot be repeated is forgotten. *)
Lemma ex_lost : let h := http (J := bytes) 1 (fun b => Some b)
    [ICall true; IMsg 0 MError [] true false; IDestroy true] in
  HCall 0 ∈ h /\ answers 0 h = [].
Proof. vm_compute. split; [left|reflexivity]. Qed.

(** Without endpoints. *)
Lemma ex_no_endpoint : HUndefined ∈ http (J := bytes) 0 (fun b => Some b) [ICall true].
Proof. vm_compute. left. Qed.

(** A handle that libcurl does not take ends the program. *)
Lemma ex_exit : HExit ∈ http (J := bytes) 1 (fun b => Some b) [ICall false].
Proof. vm_compute. right. left. Qed.
