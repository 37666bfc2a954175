(** The properties C41 (ticket numbers) and C42 (directory). *)
From stdpp Require Import base option list.
From Coq Require Import NArith.
From Verif Require Import Base TicketModel TicketSpec TicketProofs TicketExamples.
Open Scope N_scope.

(** C41: whatever the number of brokers, the interleaving, the lost messages and the
    restarts, the numbers handed out are pairwise different, until 2^64 numbers were
    handed out in ranges. *)
Theorem C41_numbers_unique R n l s out : acts R (system0 n) l = (s, out) ->
  serves l * R <= two64 -> NoDup (given out).
Proof. exact (numbers_unique R n l s out). Qed.
Print Assumptions C41_numbers_unique.

Example C41_numbers_unique_example :
  snd (acts 1000 (system0 2) two_brokers)
  = [(1, Number 1000); (3, Number 1001); (2, Number 0); (4, Number 1002); (5, Number 1);
     (6, Number 2000)] /\ serves two_brokers * 1000 <= two64.
Proof. exact two_brokers_run. Qed.

(** C41: each call is answered at most once, and a waiting call was not answered. *)
Theorem C41_answered_once R n l s out : acts R (system0 n) l = (s, out) ->
  NoDup (asked l) ->
  NoDup (answered out) /\ (forall rid, rid ∈ answered out -> rid ∈ asked l) /\
  (forall i rid, rid ∈ waiting s i -> rid ∈ asked l /\ rid ∉ answered out).
Proof. exact (answered_once R n l s out). Qed.
Print Assumptions C41_answered_once.

(** C41: no call waits while its client has numbers in hand. *)
Theorem C41_no_needless_wait R n l s out i : acts R (system0 n) l = (s, out) ->
  waiting s i <> [] -> in_hand s i = [].
Proof. exact (no_needless_wait R n l s out i). Qed.
Print Assumptions C41_no_needless_wait.

(** C41: when a range arrives, the waiting calls are answered oldest first ... *)
Theorem C41_oldest_first R s j ok s' o i r : act R s (ADeliver j ok) = (s', o) ->
  sy_ranges s !! j = Some (i, r) -> answered o ++ waiting s' i = waiting s i.
Proof. exact (delivery R s j ok s' o i r). Qed.
Print Assumptions C41_oldest_first.

(** ... all of them, if the range is large enough. *)
Theorem C41_range_serves_all R s j ok s' o i r : act R s (ADeliver j ok) = (s', o) ->
  sy_ranges s !! j = Some (i, r) ->
  N.of_nat (length (waiting s i)) <= snd r - fst r -> waiting s' i = [].
Proof. exact (delivery_enough R s j ok s' o i r). Qed.
Print Assumptions C41_range_serves_all.

(** C41: if no message is lost and every request can be sent, a waiting call has a request
    or a response on its way, whatever the restarts and errors of the service. *)
Theorem C41_waiting_is_served_partial R n l s out i : acts R (system0 n) l = (s, out) ->
  Forall (fun a => reliable a = true) l -> waiting s i <> [] -> on_its_way s i.
Proof. exact (waiting_served R n l s out i). Qed.
Print Assumptions C41_waiting_is_served_partial.

Example C41_waiting_is_served_example :
  let l := [AGet 0 1 true; ARestart 0; AGet 0 2 true; AServe 0; ADeliver 0 true; AGet 0 3 true;
            AGet 0 4 true] in
  let '(s, out) := acts 2 (system0 1) l in
  Forall (fun a => reliable a = true) l /\ out = [(2, Number 0); (3, Number 1)] /\
  waiting s 0 = [4] /\ sy_requests s = [0%nat; 0%nat].
Proof. vm_compute. split; [repeat constructor|auto]. Qed.

(** Not true: "a waiting call always has a request or a response on its way". With the
    code's ranges of 1000 numbers, the 1001st call waits for ever when the connection
    is down at the moment the first range arrives, even if it is up again later,
    unless somebody calls again. *)
Theorem C41_waiting_is_served_refuted : exists l s out,
  acts 1000 (system0 1) l = (s, out) /\ waiting s 0 = [1000] /\
  forall l', asked l' = [] -> snd (acts 1000 s l') = [].
Proof. exact crowd_case. Qed.
Print Assumptions C41_waiting_is_served_refuted.

(** C42: with at least one shard, the directory answers, the answer is the index of an
    existing shard, and it depends on nothing but the key and the number of shards. *)
Theorem C42_location_exists sip n key : n <> 0 ->
  exists i, key_location sip n key = Some i /\ i < n.
Proof. exact (location_below sip n key). Qed.
Print Assumptions C42_location_exists.

Example C42_example : key_location (fun b => N.of_nat (length b) * 7) 3 [1; 2] = Some 2.
Proof. reflexivity. Qed.
