(** C94: calls through the HTTP client for JSON-RPC. *)
From stdpp Require Import base option list gmap.
From Coq Require Import NArith.
From Verif Require Import Base HttpModel HttpSpec HttpProofs HttpEnd HttpExamples.
Open Scope N_scope.

(** C94: whatever libcurl and the servers do, the callback of a call is called at most once. *)
Theorem C94_once {J} ends (parse : bytes -> option J) ins c :
  (length (answers c (http ends parse ins)) <= 1)%nat.
Proof. exact (once ends parse ins c). Qed.
Print Assumptions C94_once.

Example C94_once_example : http 2 (fun b => Some b) (ex_ins ++ [IDestroy true]) =
  [HCall 0; HSent 0 0; HCall 1; HSent 1 1; HCall 2; HSent 2 0; HData 1 [5]; HData 2 [];
   HData 1 [6]; HDone 1 200; HAnswer 1 (Some [5; 6]); HCall 3; HSent 3 1; HFailed 2; HSent 2 0;
   HData 3 [8]; HDone 3 500; HAnswer 3 None; HData 2 [7]; HDone 2 201; HAnswer 2 (Some [7]);
   HAnswer 0 None].
Proof. exact ex_run. Qed.

(** Only calls that were made are answered. *)
Theorem C94_asked {J} ends (parse : bytes -> option J) ins i c r :
  http ends parse ins !! i = Some (HAnswer c r) -> HCall c ∈ take i (http ends parse ins).
Proof. exact (asked ends parse ins i c r). Qed.
Print Assumptions C94_asked.

(** C94: as long as libcurl can add and remove handles, every call has been answered exactly
    once when the client is destroyed. *)
Theorem C94_answered_partial {J} ends (parse : bytes -> option J) ins c :
  ends <> 0 -> Forall adds ins -> HCall c ∈ http ends parse (ins ++ [IDestroy true]) ->
  length (answers c (http ends parse (ins ++ [IDestroy true]))) = 1%nat.
Proof. exact (all_answered ends parse ins c). Qed.
Print Assumptions C94_answered_partial.

Example C94_answered_example : Forall adds ex_ins /\
  HCall 0%nat ∈ http 2 (fun b => Some b) (ex_ins ++ [IDestroy true]).
Proof. exact (conj ex_adds ex_call). Qed.

(** C94 is false in full: when a failed request cannot be given to libcurl again, its callback
    is dropped. It is not even called when the client is destroyed. *)
Theorem C94_answered_refuted : exists ins : list hinput,
  let h := http (J := bytes) 1 (fun b => Some b) (ins ++ [IDestroy true]) in
  HCall 0 ∈ h /\ answers 0 h = [].
Proof. exact (ex_intro _ [ICall true; IMsg 0 MError [] true false] ex_lost). Qed.
Print Assumptions C94_answered_refuted.

(** C94: a result is what the data that arrived for this very call stand for, whichever handles
    were used before, and the server had reported success. *)
Theorem C94_result {J} ends (parse : bytes -> option J) ins i c j :
  http ends parse ins !! i = Some (HAnswer c (Some j)) ->
  parse (received c (take i (http ends parse ins))) = Some j /\
  exists code, HDone c code ∈ take i (http ends parse ins) /\ code / 100 = 2.
Proof. exact (truthful ends parse ins i c j). Qed.
Print Assumptions C94_result.

Example C94_result_example :
  http 2 (fun b => Some b) (ex_ins ++ [IDestroy true]) !! 10%nat =
    Some (HAnswer 1%nat (Some [5; 6])).
Proof. rewrite ex_run. reflexivity. Qed.

(** A response that was completed is handed on at once: its text if the server reported
    success and the text is JSON, nothing otherwise. *)
Theorem C94_delivered {J} ends (parse : bytes -> option J) ins i c code :
  http ends parse ins !! i = Some (HDone c code) ->
  http ends parse ins !! S i =
    Some (HAnswer c (if code / 100 =? 2 then parse (received c (take i (http ends parse ins)))
                     else None)).
Proof. exact (run_delivered ends parse ins i c code). Qed.
Print Assumptions C94_delivered.

Example C94_delivered_example :
  http 2 (fun b => Some b) (ex_ins ++ [IDestroy true]) !! 9%nat = Some (HDone 1%nat 200).
Proof. rewrite ex_run. reflexivity. Qed.

(** C94: if attempts that failed had received nothing, a result is the body of the response to
    the last request. *)
Theorem C94_body_partial {J} ends (parse : bytes -> option J) ins i c j :
  http ends parse ins !! i = Some (HAnswer c (Some j)) ->
  (forall k, http ends parse ins !! k = Some (HFailed c) -> (k < i)%nat ->
     received c (take k (http ends parse ins)) = []) ->
  parse (body c (take i (http ends parse ins))) = Some j.
Proof. exact (own_body ends parse ins i c j). Qed.
Print Assumptions C94_body_partial.

Example C94_body_example k : http 2 (fun b => Some b) ex_ins !! k = Some (HFailed 2) ->
  (k < 20)%nat -> received 2 (take k (http 2 (fun b => Some b) ex_ins)) = [].
Proof. exact (ex_failed k). Qed.

(** C94 is false in full: what arrived before a transfer failed stays in front of the response
    to the next attempt. *)
Theorem C94_body_refuted : exists ins : list hinput,
  let h := http 1 (fun b => Some b) ins in answers 0 h = [Some [1; 2]] /\ body 0 h = [2].
Proof.
  exact (ex_intro _ [ICall true; IData 0 [1]; IMsg 0 MError [] true true; IData 0 [2];
                     IMsg 0 (MDone 200) [] true true] ex_stale).
Qed.
Print Assumptions C94_body_refuted.

(** C94 is false of the number of requests: one call sends its request as often as transfers
    fail, without bound and without an answer, and always to the same endpoint, however many
    there are. A request the server carried out before the transfer failed is carried out
    again. *)
Theorem C94_sent_refuted {J} ends (parse : bytes -> option J) n : ends <> 0 ->
  exists ins, let h := http ends parse ins in
    sent 0 h = S n /\ answers 0 h = [] /\ used h = replicate (S n) 0.
Proof.
  exact (fun H => ex_intro _ (ICall true :: replicate n (IMsg 0 MError [] true true))
                    (failing ends parse n H)).
Qed.
Print Assumptions C94_sent_refuted.

(** C94: requests go to the endpoints of the client only. *)
Theorem C94_endpoint {J} ends (parse : bytes -> option J) ins c e :
  HSent c e ∈ http ends parse ins -> e < ends.
Proof. exact (endpoint ends parse ins c e). Qed.
Print Assumptions C94_endpoint.

(** C94: calls made at the same time go to the endpoints in turn. *)
Theorem C94_balance_partial {J} ends (parse : bytes -> option J) n : ends <> 0 ->
  used (http ends parse (replicate n (ICall true))) =
    map (fun i => N.of_nat i mod ends) (seq 0 n).
Proof. exact (burst ends parse n). Qed.
Print Assumptions C94_balance_partial.

(** C94 is false of calls made one after the other: all of them go to the first endpoint. *)
Theorem C94_balance_refuted {J} ends (parse : bytes -> option J) n : ends <> 0 ->
  used (http ends parse
    (concat (replicate n [ICall true; IMsg 0 (MDone 200) [] true true]))) = replicate n 0.
Proof. exact (turns ends parse n). Qed.
Print Assumptions C94_balance_refuted.

(** With endpoints, no call is undefined. *)
Theorem C94_defined_partial {J} ends (parse : bytes -> option J) ins :
  ends <> 0 -> HUndefined ∉ http ends parse ins.
Proof. exact (defined ends parse ins). Qed.
Print Assumptions C94_defined_partial.

(** C94 is false of a client without endpoints: the first call has no defined behaviour. *)
Theorem C94_no_endpoint_refuted :
  exists ins, HUndefined ∈ http (J := bytes) 0 (fun b => Some b) ins.
Proof. exact (ex_intro _ [ICall true] ex_no_endpoint). Qed.
Print Assumptions C94_no_endpoint_refuted.
