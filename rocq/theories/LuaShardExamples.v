(** Two payments at the same time, for property C96. *)
From Coq Require Import NArith List Bool Lia.
From stdpp Require Import base option list gmap countable.
From Verif Require Import Base LuaModel LuaPayModel LuaPaySpec LuaPayProofs LuaPayExamples ParsecShardModel
  ParsecShardSpec ParsecShardExamples LuaShardSpec.
Import ListNotations.
Open Scope N_scope.

(** Keys numbered. *)
Definition number (k : bytes) : key := Npos (encode k).
Lemma number_inj a b : number a = number b -> a = b.
Proof. intros [= H]. by apply (inj encode). Qed.

(** Ticket 1: Ann pays Bob 3. Ticket 2: Bob pays Ann 9. *)
Definition ex_param (tn : ticket_no) : bytes := if tn =? 1 then req ann bob 3 4 else req bob ann 9 0.
Definition ex_state : gmap key bytes :=
  {[number (account ann) := le_bytes 8 10 ++ le_bytes 8 4;
    number (account bob) := le_bytes 8 20 ++ le_bytes 8 0]}.
Definition ex_up (a q b r : N) : gmap key bytes :=
  {[number (account ann) := le_bytes 8 a ++ le_bytes 8 q;
    number (account bob) := le_bytes 8 b ++ le_bytes 8 r]}.

(** Each locks its payer; 2 waits for Ann's account; 1 asks for Bob's, 2 is wounded, and begins
    again after 1 was committed. *)
Definition ex_ops : list op :=
  [OTryLock 1 1 0 (number (account ann)) Write true; OTryLock 2 2 0 (number (account bob)) Write true;
   OTryLock 3 2 0 (number (account ann)) Write false; OTryLock 4 1 0 (number (account bob)) Write false;
   OPrepare 2 0 (ex_up 19 4 11 1);
   OPrepare 1 0 (ex_up 7 5 23 0); ORollback 2; OCommit 1; OFinish 1;
   OTryLock 5 2 0 (number (account bob)) Write true; OTryLock 6 2 0 (number (account ann)) Write false;
   OPrepare 2 0 (ex_up 16 5 14 1); OCommit 2; OFinish 2].

Lemma ex_issued : NoDup (issued ex_ops).
Proof. apply (proj1 (bool_decide_eq_true _)). vm_compute. reflexivity. Qed.

(** A check of agents_follow for payments. *)
Definition fitting (v : view) (tn : ticket_no) (m : gmap key bytes) : bool :=
  match pay_run yes always same (fun k => default [] (v_got v !! (tn, number k))) (ex_param tn) with
  | (ks, Updates u) => bool_decide (m = update_map number u) &&
      forallb (fun k => match v_got v !! (tn, number k) with Some _ => true | None => false end) ks
  | _ => false
  end.
Fixpoint followb (v : view) (tr : list (op * list event)) : bool :=
  match tr with
  | [] => true
  | p :: r =>
      match p with
      | (OPrepare tn _ m, ev) => if succeeded ev then fitting v tn m else true
      | _ => true
      end && followb (see v p) r
  end.

Lemma followb_ok tr : forall v, followb v tr = true ->
  forall tr1 tn br m ev tr2, tr = tr1 ++ (OPrepare tn br m, ev) :: tr2 -> succeeded ev = true ->
  exists got ks u, alone (pay_resume yes always same) 3 (fun _ => PStart) ex_param got tn ks u /\
    m = update_map number u /\
    forall k, k ∈ ks -> v_got (view_of v tr1) !! (tn, number k) = Some (got k).
Proof.
  induction tr as [|p tr IH]; intros v H tr1 tn br m ev tr2 E Hs; [by destruct tr1|].
  cbn [followb] in H. apply andb_prop in H as [H1 H2].
  destruct tr1 as [|q tr1]; cbn in E; injection E as -> ->.
  - rewrite Hs in H1. unfold fitting in H1.
    set (got := fun k => default [] (v_got v !! (tn, number k))) in *.
    pose proof (pay_runs yes always same got (ex_param tn)) as R. unfold pay in R.
    destruct (pay_run yes always same got (ex_param tn)) as [ks [u|]]; [|discriminate].
    apply andb_prop in H1 as [Hm Hk]. apply bool_decide_eq_true in Hm.
    exists got, ks, u. split; [exact R|]. split; [exact Hm|].
    intros k Hin%elem_of_list_In. apply (proj1 (forallb_forall _ _) Hk) in Hin. unfold got. cbn [view_of fold_left].
    by destruct (v_got v !! (tn, number k)).
  - exact (IH (see v q) H2 tr1 tn br m ev tr2 eq_refl Hs).
Qed.

Lemma ex_run : exists s tr, executes ex_state ∅ ex_ops s tr /\
  agents_follow (pay_resume yes always same) 3 (fun _ => PStart) ex_param number ex_state tr /\
  committed tr = [1; 2] /\
  balance (in_shard number s) ann = 16 /\ balance (in_shard number s) bob = 14.
Proof.
  destruct (try_run_ok ex_state ∅ ex_ops (fun s tr =>
     followb (view0 ex_state ∅) tr && bool_decide (committed tr = [1; 2]) &&
     (balance (in_shard number s) ann =? 16) && (balance (in_shard number s) bob =? 14)))
    as (s & tr & He & H).
  - exact disjoint_empty.
  - vm_compute. reflexivity.
  - exists s, tr. split; [exact He|]. apply andb_prop in H as [H H4]. apply andb_prop in H as [H H3].
    apply andb_prop in H as [H1 H2]. split; [|split; [by apply bool_decide_eq_true in H2|split; by apply N.eqb_eq]].
    intros tr1 tn br m ev tr2. by apply followb_ok.
Qed.

Lemma ex_accounts : Forall (among [ann; bob]) (map ex_param [1; 2]) /\
  Forall (fun p => fresh p /\ payer p <> payee p) (map ex_param [1; 2]) /\
  Forall (sound (at_start number ex_state)) [ann; bob] /\
  money (at_start number ex_state) [ann; bob] = 30.
Proof.
  assert (R1 : request (req ann bob 3 4)) by (apply request_by; vm_compute; reflexivity).
  assert (R2 : request (req bob ann 9 0)) by (apply request_by; vm_compute; reflexivity).
  assert (A1 : among [ann; bob] (req ann bob 3 4)).
  { split; [exact R1|]. split; [by left|]. split; [by right; left|]. split; [by vm_compute|]. by vm_compute. }
  assert (A2 : among [ann; bob] (req bob ann 9 0)).
  { split; [exact R2|]. split; [by right; left|]. split; [by left|]. split; [by vm_compute|]. by vm_compute. }
  split; [by repeat constructor|]. split.
  { repeat constructor; try done; by vm_compute. }
  split; [|by vm_compute].
  constructor; [|constructor; [|constructor]]; apply sound_by; vm_compute; reflexivity.
Qed.
