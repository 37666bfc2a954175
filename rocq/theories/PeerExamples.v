(** Concrete runs of a peer (C73). *)
From stdpp Require Import base option list.
From Coq Require Import NArith Lia.
From Verif Require Import Base PeerModel PeerSpec.

(** * Reconnecting without end *)

(** The network breaks the connection once. The sending thread finds out and asks for a new
    connection. The reconnecting thread clears the request and closes the socket; that makes
    the receiving thread fail, which asks again. *)
Definition first_failure : list pop :=
  [PSender true; PReceiver; PKeeper true; PBreak 0; PApi [1%N]; PSender true; PSender false;
   PSender true; PSender true;
   PKeeper true; PKeeper true; PKeeper true; PKeeper true;    (* closing: the socket is gone *)
   PReceiver; PReceiver; PReceiver;                           (* the second request *)
   PKeeper true; PKeeper true; PKeeper true; PKeeper true;    (* clear, joins, reset *)
   PKeeper true; PKeeper true].                               (* connected again, threads run *)

(** The request is still there, though the connection is good: the reconnecting thread takes
    it down, and the receiving thread asks again. *)
Definition again : list pop :=
  [PReceiver; PKeeper true; PKeeper true; PKeeper true; PKeeper true; PKeeper true;
   PReceiver; PReceiver; PReceiver; PKeeper true; PSender true;
   PKeeper true; PKeeper true; PKeeper true; PKeeper true; PKeeper true].

Fixpoint again_and_again (n : nat) : list pop :=
  match n with O => [] | S n' => again ++ again_and_again n' end.

(** Connected, with a stale request for a new connection. *)
Definition stale (l : list bool) (pu : list bytes) (se : list (nat * bytes)) : peer :=
  Peer true false true true [] false (Some (length l)) (l ++ [true]) STop RTop KTop XOff pu se false.

Lemma run_app l1 : forall s l2, p_run s (l1 ++ l2) =
  match p_run s l1 with Some s' => p_run s' l2 | None => None end.
Proof.
  induction l1 as [|o l1 IH]; intros s l2; cbn; [easy|]. destruct (p_step s o); [apply IH|easy].
Qed.

Lemma first_failure_run : p_run (peer_init true true) first_failure = Some (stale [false] [[1%N]] []).
Proof. vm_compute. reflexivity. Qed.

Lemma alive_last (l : list bool) b : (l ++ [b]) !! length l = Some b.
Proof. rewrite lookup_app_r by lia. now rewrite Nat.sub_diag. Qed.

Lemma kill_last (l : list bool) b : <[length l := false]> (l ++ [b]) = l ++ [false].
Proof. rewrite insert_app_r_alt by lia. now rewrite Nat.sub_diag. Qed.

Lemma again_run' c cs pu se :
  p_run (Peer true false true true [] false (Some c) cs STop RTop KTop XOff pu se false) again =
  Some (Peer true false true true [] false (Some (length (<[c := false]> cs))) (<[c := false]> cs ++ [true])
          STop RTop KTop XOff pu se false).
Proof. vm_compute. reflexivity. Qed.

Lemma again_run l pu se : p_run (stale l pu se) again = Some (stale (l ++ [false]) pu se).
Proof. unfold stale. rewrite again_run', kill_last. reflexivity. Qed.

Lemma again_and_again_run n : forall l pu se, exists l',
  length l' = (length l + n)%nat /\ p_run (stale l pu se) (again_and_again n) = Some (stale l' pu se).
Proof.
  induction n as [|n IH]; intros l pu se; cbn [again_and_again].
  - exists l. split; [lia|reflexivity].
  - destruct (IH (l ++ [false]) pu se) as (l' & L & R). exists l'. rewrite app_length in L. cbn in L.
    split; [lia|]. rewrite run_app, again_run. exact R.
Qed.

Lemma again_breaks n : breaks (again_and_again n) = O.
Proof. induction n as [|n IH]; [easy|exact IH]. Qed.

Lemma reconnects_forever n : exists l s,
  p_run (peer_init true true) l = Some s /\ breaks l = 1%nat /\ (n <= connections s)%nat /\
  p_shut s = false.
Proof.
  destruct (again_and_again_run n [false] [[1%N]] []) as (l' & L & R).
  exists (first_failure ++ again_and_again n), (stale l' [[1%N]] []). split_and!.
  - rewrite run_app, first_failure_run. exact R.
  - exact (eq_trans (f_equal S (again_breaks n)) eq_refl).
  - unfold connections. cbn. rewrite app_length. cbn. cbn in L. lia.
  - reflexivity.
Qed.

(** * Shutdown *)

(** The reconnecting thread has found that there is nothing to do, but does not sleep yet,
    when shutdown() sets its flag and notifies. *)
Definition hanging : list pop :=
  [PSender true; PReceiver; PKeeper true; PKeeper true; PShutdown; PShutdown; PKeeper true].

Lemma hanging_case : exists s, p_run (peer_init true true) hanging = Some s /\ at_rest s /\
  p_shutter s = XJoin /\ p_shut s = true.
Proof.
  eexists. split; [vm_compute; reflexivity|]. split_and!; try reflexivity.
  unfold at_rest. split_and!; try reflexivity; intros ok; now destruct ok.
Qed.

(** * Lost packets *)

(** A packet is accepted, the connection breaks, the peer connects again, and all rests. *)
Definition losing : list pop :=
  [PSender true; PReceiver; PKeeper true; PBreak 0; PApi [1%N]; PReceiver; PReceiver; PReceiver;
   PKeeper true; PKeeper true; PKeeper true; PKeeper true; PKeeper true;  (* request, running, socket, clear *)
   PSender true; PKeeper true; PKeeper true; PKeeper true;
   PKeeper true; PKeeper true; PKeeper true; PKeeper true; PKeeper true; PSender true; PReceiver].

Lemma losing_case : exists s, p_run (peer_init true true) losing = Some s /\ at_rest s /\
  connected_idle s /\ p_shut s = false /\ p_pushed s = [[1%N]] /\ p_sent s = [].
Proof.
  eexists. split; [vm_compute; reflexivity|]. split_and!; try reflexivity.
  - unfold at_rest. split_and!; try reflexivity; intros ok; now destruct ok.
  - now vm_compute.
Qed.

(** A peer that sends two packets, loses its connection while a third waits, connects
    again, sends a fourth, and is shut down. *)
Definition living : list pop :=
  [PSender true; PReceiver; PKeeper true; PApi [1%N]; PApi [2%N]; PSender true; PSender true;
   PSender true; PSender true; PSender true; PSender true;
   PBreak 0; PApi [3%N]; PReceiver; PReceiver; PReceiver;
   PKeeper true; PKeeper true; PKeeper true; PKeeper true; PKeeper true;
   PSender true; PKeeper true; PKeeper true; PKeeper true; PKeeper false; PKeeper true; PKeeper true;
   PApi [4%N]; PSender true; PSender true; PSender true; PReceiver; PArrive; PReceiver].
Definition ending : list pop :=
  [PShutdown; PShutdown; PKeeper true; PShutdown; PShutdown; PShutdown; PShutdown; PReceiver;
   PReceiver; PReceiver; PSender true; PShutdown; PShutdown; PShutdown].

Lemma living_case : exists s s', p_run (peer_init true true) living = Some s /\
  p_sent s = [(0%nat, [1%N]); (0%nat, [2%N]); (1%nat, [4%N])] /\
  p_pushed s = [[1%N]; [2%N]; [3%N]; [4%N]] /\
  p_run s ending = Some s' /\ at_rest s' /\ p_shutter s' = XDone.
Proof.
  eexists. eexists. split; [vm_compute; reflexivity|]. split; [reflexivity|]. split; [reflexivity|].
  split; [vm_compute; reflexivity|]. split; [|reflexivity].
  unfold at_rest. split_and!; try reflexivity; intros ok; now destruct ok.
Qed.

(** A peer that may not reconnect gives up, and rests. *)
Definition giving_up : list pop :=
  [PSender true; PReceiver; PKeeper true; PBreak 0; PReceiver; PReceiver; PReceiver;
   PKeeper true; PKeeper true; PKeeper true; PKeeper true; PKeeper true;
   PSender true; PKeeper true; PKeeper true; PKeeper true; PKeeper true].

Lemma giving_up_case : exists s, p_run (peer_init false true) giving_up = Some s /\ at_rest s /\
  p_shutter s = XOff /\ p_sock s = None.
Proof.
  eexists. split; [vm_compute; reflexivity|]. split_and!; try reflexivity.
  unfold at_rest. split_and!; try reflexivity; intros ok; now destruct ok.
Qed.
