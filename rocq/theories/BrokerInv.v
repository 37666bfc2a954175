(** The invariant of one ticket in the broker's system, and how it changes. *)
From stdpp Require Import base option list gmap fin_maps fin_sets.
From Coq Require Import NArith Lia.
From Verif Require Import Base ParsecShardModel ParsecShardSpec BrokerModel BrokerSpec BrokerShard.
Open Scope N_scope.

(** ** Requests and answers *)

Definition is_rb (q : breq) : Prop := match q with QRollback _ => True | _ => False end.
Definition is_lock (q : breq) : Prop := match q with QLock _ _ _ _ => True | _ => False end.
Definition is_prep (q : breq) : Prop := match q with QPrepare _ _ => True | _ => False end.
Definition is_com (q : breq) : Prop := match q with QCommit _ => True | _ => False end.
Definition is_fin (q : breq) : Prop := match q with QFinish _ => True | _ => False end.

(** A successful answer, and to what. *)
Inductive okind := OP | OC | OR | OF.
Definition ok (x : cont * rsp) : option okind :=
  match x with
  | (KPrepare _ _, PReply None) => Some OP
  | (KCommit _ _, PReply None) => Some OC
  | (KRollback _ _, PReply None) => Some OR
  | (KFinish _ _, PReply None) => Some OF
  | _ => None
  end.

(** One shard of one ticket: its status on the shard, the requests under way to it and
    the answers under way from it, what it committed, what the broker knows about it,
    and whether the client asked it for a lock. *)
Record cell := Cell {
  c_st : status;
  c_R : list breq;
  c_Q : list (cont * rsp);
  c_dn : option updates;
  c_sh : option sst;
  c_as : bool
}.

Lemma snoc_split {A} (l : list A) x r1 q r2 :
  l ++ [x] = r1 ++ q :: r2 ->
  (r2 = [] /\ q = x /\ r1 = l) \/ (exists r2', r2 = r2' ++ [x] /\ l = r1 ++ q :: r2').
Proof.
  intros E. destruct r2 as [|y r2] using rev_ind.
  - apply app_inj_tail in E as [-> ->]. auto.
  - clear IHr2. rewrite app_comm_cons, app_assoc in E. apply app_inj_tail in E as [-> ->]. right. eauto.
Qed.
Lemma app_split {A} (l l' : list A) r1 q r2 :
  l ++ l' = r1 ++ q :: r2 ->
  (exists r2', r2 = r2' ++ l' /\ l = r1 ++ q :: r2') \/ q ∈ l'.
Proof.
  revert r2. induction l' as [|x l' IH] using rev_ind; intros r2 E.
  - left. exists r2. rewrite !app_nil_r in *. auto.
  - rewrite app_assoc in E. apply snoc_split in E as [(-> & -> & _)|(r2' & -> & E)].
    + right. set_solver.
    + destruct (IH _ E) as [(r3 & -> & ->)|H]; [|right; set_solver].
      left. exists r3. now rewrite app_assoc.
Qed.

Section Inv.
Context (loc : key -> N) (nsh : N).

Definition clean (c : cell) : Prop :=
  c_st c = Absent /\ (forall q, q ∈ c_R c -> is_rb q) /\ (forall x, x ∈ c_Q c -> ok x = None).

(** What always holds. *)
Definition base (c : cell) : Prop :=
  (c_st c <> Absent -> c_as c = true) /\
  (forall q, q ∈ c_R c -> is_lock q -> c_as c = true) /\
  (c_dn c <> None -> c_as c = true).

Definition beg_state (x : sstate) : Prop :=
  match x with SBegun | SPreparing | SPrepared | SWounded => True | _ => False end.
Definition rol_state (x : sstate) : Prop :=
  match x with
  | SBegun | SPreparing | SPrepared | SWounded | SRollingBack | SRolledBack => True
  | _ => False end.

(** Before a decision: [uo] are the updates of the commit under way, if any. *)
Record beg (uo : option updates) (i : N) (c : cell) : Prop := {
  g1_app : c_st c <> Applied;
  g1_ready : forall u, c_st c = Ready u -> exists U, uo = Some U /\ u = part loc U i;
  g1_R : forall q, q ∈ c_R c -> is_rb q \/ is_lock q \/
           exists U t, uo = Some U /\ q = QPrepare t (part loc U i);
  g1_rb : forall r1 q r2, c_R c = r1 ++ q :: r2 -> is_rb q ->
           c_st c = Absent /\ forall q', q' ∈ r1 -> is_rb q';
  g1_Q : forall x o, x ∈ c_Q c -> ok x = Some o -> o = OP /\ exists u, c_st c = Ready u;
  g1_none : c_sh c = None -> clean c /\ c_as c = false;
  g1_sh : forall s, c_sh c = Some s -> i < nsh /\ beg_state (ss_state s) /\
            (ss_state s = SPrepared -> exists u, c_st c = Ready u) /\
            (forall k, is_Some (ss_keys s !! k) -> loc k = i);
  g1_dn : c_dn c = None
}.

(** While rolling back. *)
Record rol (i : N) (c : cell) : Prop := {
  g2_app : c_st c <> Applied;
  g2_R : forall q, q ∈ c_R c -> is_rb q \/ is_lock q \/ is_prep q;
  g2_rb : forall r1 q r2, c_R c = r1 ++ q :: r2 -> is_rb q ->
           (forall q', q' ∈ r2 -> is_rb q') \/ (c_st c = Absent /\ forall q', q' ∈ r1 -> is_rb q');
  g2_Q : forall x o, x ∈ c_Q c -> ok x = Some o -> o = OP \/ o = OR;
  g2_ok : forall q1 x q2, c_Q c = q1 ++ x :: q2 -> ok x = Some OR ->
           c_st c = Absent /\ (forall q, q ∈ c_R c -> is_rb q) /\ (forall x', x' ∈ q2 -> ok x' = None);
  g2_none : c_sh c = None -> clean c;
  g2_sh : forall s, c_sh c = Some s -> i < nsh /\ rol_state (ss_state s) /\
            (ss_state s = SRolledBack -> clean c);
  g2_dn : c_dn c = None
}.

(** A shard that takes no part in a decided transaction. *)
Definition bystander (c : cell) : Prop :=
  c_st c = Absent /\ (forall q, q ∈ c_R c -> ~ is_lock q) /\ (forall x, x ∈ c_Q c -> ok x = None).

(** Every shard is prepared: committing. *)
Definition pre_good (U : updates) (i : N) (c : cell) : Prop := exists s, c_sh c = Some s /\
  ((c_st c = Ready (part loc U i) /\ c_dn c = None) \/
   (c_st c = Applied /\ c_dn c = Some (part loc U i))) /\
  (forall q, q ∈ c_R c -> is_lock q \/ is_prep q \/ is_com q) /\
  (forall x o, x ∈ c_Q c -> ok x = Some o -> o = OP \/ (o = OC /\ c_st c = Applied)) /\
  (ss_state s = SCommitted -> c_st c = Applied).
Definition pre (U : updates) (i : N) (c : cell) : Prop :=
  pre_good U i c \/
  (bystander c /\ c_dn c = None /\ c_as c = false /\ forall s, c_sh c = Some s -> ss_state s <> SCommitted).

(** Every shard committed: finishing. *)
Definition cmt_good (U : updates) (i : N) (c : cell) : Prop := exists s, c_sh c = Some s /\
  c_dn c = Some (part loc U i) /\
  (c_st c = Applied \/ (c_st c = Absent /\ forall q, q ∈ c_R c -> is_fin q)) /\
  (forall q, q ∈ c_R c -> is_lock q \/ is_prep q \/ is_com q \/ is_fin q) /\
  (forall r1 q r2, c_R c = r1 ++ q :: r2 -> is_fin q -> forall q', q' ∈ r2 -> is_fin q') /\
  (forall x, x ∈ c_Q c -> ok x = Some OF -> c_st c = Absent) /\
  (ss_state s = SFinished -> c_st c = Absent).
Definition cmt (U : updates) (i : N) (c : cell) : Prop :=
  cmt_good U i c \/
  (bystander c /\ (c_as c = true -> c_dn c <> None) /\ (forall x, c_dn c = Some x -> x = part loc U i) /\
   forall s, c_sh c = Some s -> ss_state s <> SFinished).

(** ** The whole ticket *)

Record view := View {
  w_bs : option bstate;
  w_ph : option phase;
  w_up : option updates;
  w_c : N -> cell
}.

Definition rolling (v : view) : Prop :=
  (forall i, rol i (w_c v i)) /\
  exists i s, c_sh (w_c v i) = Some s /\ (ss_state s = SRollingBack \/ ss_state s = SRolledBack).

(** No shard has the ticket any more and none will get it again. *)
Definition gone (v : view) : Prop :=
  (forall i, c_st (w_c v i) = Absent /\ forall q, q ∈ c_R (w_c v i) -> ~ is_lock q) /\
  ((forall i, c_dn (w_c v i) = None) \/
   exists U, w_up v = Some U /\ forall i, (c_as (w_c v i) = true -> c_dn (w_c v i) <> None) /\
                                (forall x, c_dn (w_c v i) = Some x -> x = part loc U i)).

(** The broker crashed. *)
Definition orph (v : view) : Prop :=
  (forall i, c_R (w_c v i) = [] /\ forall x, x ∈ c_Q (w_c v i) -> ok x = None) /\
  ((forall i, c_st (w_c v i) <> Applied /\ c_dn (w_c v i) = None) \/
   exists U, w_up v = Some U /\ forall i,
     let c := w_c v i in
     (c_st c = Absent /\ (forall x, c_dn c = Some x -> x = part loc U i) /\
        (c_as c = true -> forall j, c_as (w_c v j) = true -> c_dn (w_c v j) <> None)) \/
     (c_st c = Ready (part loc U i) /\ c_dn c = None) \/
     (c_st c = Applied /\ c_dn c = Some (part loc U i))).

Definition never (v : view) : Prop :=
  forall i, let c := w_c v i in
    c_st c = Absent /\ c_R c = [] /\ (forall x, x ∈ c_Q c -> ok x = None) /\ c_dn c = None /\ c_as c = false.

Definition rollmode (b : bstate) (v : view) : Prop :=
  (b = BBegun /\ rolling v) \/
  (b = BAborted /\ forall i, clean (w_c v i) /\ c_dn (w_c v i) = None).

(** [st]: recovery has dealt with the tickets it found. *)
Definition tinv (st : bool) (v : view) : Prop :=
  (forall i, base (w_c v i)) /\
  match w_bs v, w_ph v with
  | None, None => never v
  | None, Some Orphan => (st = false /\ orph v) \/ gone v
  | None, Some _ => gone v
  | Some b, Some Work => b = BBegun /\ forall i, beg None i (w_c v i)
  | Some b, Some Com => exists U, w_up v = Some U /\
      (b = BBegun /\ (forall i, beg (Some U) i (w_c v i)) \/
       b = BPrepared /\ (forall i, pre U i (w_c v i)) \/
       b = BCommitted /\ (forall i, cmt U i (w_c v i)))
  | Some b, Some Roll => rollmode b v
  | Some b, Some Orphan =>
      rollmode b v \/
      exists U, w_up v = Some U /\
      (b = BPrepared /\ (forall i, pre U i (w_c v i)) \/
       b = BCommitted /\ (forall i, cmt U i (w_c v i)))
  | Some _, None => False
  end.

Lemma tinv_ext st v v' :
  w_bs v' = w_bs v -> w_ph v' = w_ph v -> w_up v' = w_up v -> (forall i, w_c v' i = w_c v i) ->
  tinv st v -> tinv st v'.
Proof.
  intros E1 E2 E3 E [Hb H]. unfold tinv. rewrite E1, E2, E3.
  split; [intros i; rewrite E; apply Hb|].
  assert (Hr : rolling v -> rolling v').
  { intros [A (j & s & B)]. split; [intros i; rewrite E; apply A|]. exists j, s. now rewrite E. }
  assert (Hg : gone v -> gone v').
  { intros [A B]. split; [intros i; rewrite E; apply A|].
    rewrite E3. destruct B as [B|(U & HU & B)]; [left; intros i; rewrite E; apply B|].
    right. exists U. split; [done|]. intros i. rewrite E. apply B. }
  assert (Ho : orph v -> orph v').
  { intros [A B]. split; [intros i; rewrite E; apply A|].
    rewrite E3. destruct B as [B|(U & HU & B)]; [left; intros i; rewrite E; apply B|].
    right. exists U. split; [done|]. intros i. cbn. rewrite E.
    destruct (B i) as [(B1 & B2 & B3)|B1]; [left|right; exact B1].
    split; [done|]. split; [done|]. intros Ha j. rewrite E. now apply B3. }
  assert (Hm : forall b, rollmode b v -> rollmode b v').
  { intros b [[A B]|[A B]]; [left; auto|right]. split; [done|]. intros i. rewrite E. apply B. }
  destruct (w_bs v) as [b|], (w_ph v) as [[]|]; auto.
  - destruct H as [A B]. split; [done|]. intros i. rewrite E. apply B.
  - destruct H as (U & HU & H). exists U. split; [done|].
    destruct H as [[A B]|[[A B]|[A B]]]; [left|right; left|right; right];
      (split; [done|]; intros i; rewrite E; apply B).
  - destruct H as [H|(U & HU & H)]; [left; auto|right]. exists U. split; [done|].
    destruct H as [[A B]|[A B]]; [left|right]; (split; [done|]; intros i; rewrite E; apply B).
  - destruct H as [[A B]|A]; auto.
  - intros i. cbn. rewrite E. apply H.
Qed.

(** ** A change in one shard *)

Definition set_cell (v : view) (i : N) (c : cell) : view :=
  View (w_bs v) (w_ph v) (w_up v) (fun j => if j =? i then c else w_c v j).

Lemma set_cell_eq v i c : w_c (set_cell v i c) i = c.
Proof. cbn. now rewrite N.eqb_refl. Qed.
Lemma set_cell_ne v i c j : j <> i -> w_c (set_cell v i c) j = w_c v j.
Proof. intros H. cbn. apply N.eqb_neq in H. now rewrite H. Qed.
Lemma set_cell_all v i c (P : N -> cell -> Prop) :
  P i c -> (forall j, P j (w_c v j)) -> forall j, P j (w_c (set_cell v i c) j).
Proof. intros H1 H2 j. cbn. destruct (N.eqb_spec j i) as [->|]; auto. Qed.

(** The shard executes the first request. *)
Inductive exec (c : cell) : cell -> Prop :=
| X_lock t k m f R st L : c_R c = QLock t k m f :: R ->
    (st = c_st c \/ (c_st c = Absent /\ st = Active)) ->
    (forall x, x ∈ L -> ok x = None) ->
    exec c (Cell st R (c_Q c ++ L) (c_dn c) (c_sh c) (c_as c))
| X_prep_err t u R x : c_R c = QPrepare t u :: R -> ok x = None ->
    exec c (Cell (c_st c) R (c_Q c ++ [x]) (c_dn c) (c_sh c) (c_as c))
| X_prep_ok t u R x : c_R c = QPrepare t u :: R -> ok x = Some OP -> c_st c = Active ->
    exec c (Cell (Ready u) R (c_Q c ++ [x]) (c_dn c) (c_sh c) (c_as c))
| X_com_err t R x : c_R c = QCommit t :: R -> ok x = None -> (forall u, c_st c <> Ready u) ->
    exec c (Cell (c_st c) R (c_Q c ++ [x]) (c_dn c) (c_sh c) (c_as c))
| X_com_ok t u R L x : c_R c = QCommit t :: R -> (forall y, y ∈ L -> ok y = None) -> ok x = Some OC ->
    c_st c = Ready u ->
    exec c (Cell Applied R (c_Q c ++ L ++ [x]) (Some u) (c_sh c) (c_as c))
| X_rb_err t R x : c_R c = QRollback t :: R -> ok x = None -> c_st c = Absent ->
    exec c (Cell Absent R (c_Q c ++ [x]) (c_dn c) (c_sh c) (c_as c))
| X_rb_ok t R L x : c_R c = QRollback t :: R -> (forall y, y ∈ L -> ok y = None) -> ok x = Some OR ->
    c_st c <> Absent ->
    exec c (Cell Absent R (c_Q c ++ L ++ [x]) (c_dn c) (c_sh c) (c_as c))
| X_fin_err t R x : c_R c = QFinish t :: R -> ok x = None ->
    exec c (Cell (c_st c) R (c_Q c ++ [x]) (c_dn c) (c_sh c) (c_as c))
| X_fin_ok t R x : c_R c = QFinish t :: R -> ok x = Some OF -> c_st c = Applied ->
    exec c (Cell Absent R (c_Q c ++ [x]) (c_dn c) (c_sh c) (c_as c))
| X_answers L : (forall x, x ∈ L -> ok x = None) ->
    exec c (Cell (c_st c) (c_R c) (c_Q c ++ L) (c_dn c) (c_sh c) (c_as c)).

Ltac in_app :=
  repeat match goal with
  | H : _ ∈ _ ++ _ |- _ => apply elem_of_app in H as [H|H]
  | H : _ ∈ [_] |- _ => apply elem_of_list_singleton in H; subst
  | H : _ ∈ [] |- _ => now apply elem_of_nil in H
  end.


Lemma exec_base c c' : base c -> exec c c' -> base c'.
Proof.
  intros (A & B & C) X.
  assert (HR : forall q0 R q, c_R c = q0 :: R -> q ∈ R -> is_lock q -> c_as c = true).
  { intros q0 R q E Hq. apply B. rewrite E. now right. }
  destruct X; unfold base; cbn; (split; [|split]); try solve [eauto].
  all: try done.
  all: try (intros _; apply A; congruence).
  destruct H0 as [->|[_ ->]]; [exact A|]. intros _. apply (B (QLock t k m f)); [rewrite H; left|done].
Qed.

Lemma exec_clean c c' : clean c -> exec c c' -> clean c'.
Proof.
  intros (A & B & C) X.
  assert (HR : forall q0 R q, c_R c = q0 :: R -> q ∈ R -> is_rb q).
  { intros q0 R q E Hq. apply B. rewrite E. now right. }
  assert (Hh : forall q0 R, c_R c = q0 :: R -> is_rb q0).
  { intros q0 R E. apply B. rewrite E. left. }
  destruct X as [t k m f R st L E|t u R x E Ho|t u R x E Ho|t R x E Ho Hn|t u R L x E HL Ho Hs|t R x E Ho Hs
    |t R L x E HL Ho Hs|t R x E Ho|t R x E Ho Hs|L HL]; try (now apply Hh in E); try congruence.
  - split; [done|]. cbn. split; [eauto|]. intros y Hy. in_app; auto.
  - split; [done|]. cbn. split; [auto|]. intros y Hy. in_app; auto.
Qed.

Lemma exec_bystander c c' : bystander c -> exec c c' ->
  bystander c' /\ c_dn c' = c_dn c /\ c_sh c' = c_sh c /\ c_as c' = c_as c.
Proof.
  intros (A & B & C) X.
  assert (HR : forall q0 R q, c_R c = q0 :: R -> q ∈ R -> ~ is_lock q).
  { intros q0 R q E Hq. apply B. rewrite E. now right. }
  destruct X as [t k m f R st L E|t u R x E Ho|t u R x E Ho|t R x E Ho Hn|t u R L x E HL Ho Hs|t R x E Ho Hs
    |t R L x E HL Ho Hs|t R x E Ho|t R x E Ho Hs|L HL]; try congruence;
    try (split; [|done]; split; [done|]; cbn; split; [solve [eauto]|]; intros y Hy; in_app; auto; fail).
  exfalso. apply (B (QLock t k m f)); [rewrite E; left|done].
Qed.

Lemma exec_same c c' : exec c c' -> c_sh c' = c_sh c /\ c_as c' = c_as c.
Proof. destruct 1; done. Qed.

Lemma exec_beg uo i c c' : beg uo i c -> exec c c' -> beg uo i c'.
Proof.
  intros [A B C D E F G H] X.
  assert (HR : forall q0 R q, c_R c = q0 :: R -> q ∈ R -> q ∈ c_R c) by (intros q0 R q -> ?; now right).
  assert (Hh : forall q0 R, c_R c = q0 :: R -> is_rb q0 \/ is_lock q0 \/
     exists U t, uo = Some U /\ q0 = QPrepare t (part loc U i)).
  { intros q0 R E0. apply C. rewrite E0. left. }
  assert (Hnrb : forall q0 R r1 q r2, c_R c = q0 :: R -> ~ is_rb q0 -> R = r1 ++ q :: r2 -> is_rb q -> False).
  { intros q0 R r1 q r2 E0 Hn -> Hq. destruct (D (q0 :: r1) q r2) as [_ Hr]; [done|done|].
    apply Hn, Hr. left. }
  assert (Hc : c_sh c = None -> clean c').
  { intros Hs. destruct (F Hs) as [Hc _]. apply (exec_clean c); assumption. }
  destruct X as [t k m f R st L E0 Hst HL|t u R x E0 Ho|t u R x E0 Ho Hs|t R x E0 Ho Hn|t u R L x E0 HL Ho Hs
    |t R x E0 Ho Hs|t R L x E0 HL Ho Hs|t R x E0 Ho|t R x E0 Ho Hs|L HL];
    try (apply Hh in E0 as [[]|[[]|(? & ? & _ & [=])]]; fail).
  - constructor; cbn.
    + destruct Hst as [->|[_ ->]]; [exact A|done].
    + destruct Hst as [->|[_ ->]]; [exact B|done].
    + eauto.
    + intros r1 q r2 Er Hq. exfalso. eapply Hnrb; eauto.
    + intros y o Hy Hok. in_app; [|rewrite HL in Hok by done; discriminate].
      destruct (E y o Hy Hok) as [-> [u Hu]]. split; [done|].
      destruct Hst as [->|[C0 _]]; [eauto|congruence].
    + intros Hn. split; [apply Hc, Hn|apply F, Hn].
    + intros s Hs. destruct (G s Hs) as (G1 & G2 & G3 & G4). repeat split; try done.
      intros Hp. destruct (G3 Hp) as [u Hu]. destruct Hst as [->|[C0 _]]; [eauto|congruence].
    + exact H.
  - constructor; cbn; try assumption.
    + eauto.
    + intros r1 q r2 Er Hq. exfalso. eapply Hnrb; eauto.
    + intros y o Hy Hok. in_app; [|congruence]. eauto.
    + intros Hn. split; [apply Hc, Hn|apply F, Hn].
  - assert (HU : exists U, uo = Some U /\ u = part loc U i).
    { apply Hh in E0 as [[]|[[]|(U & t' & HU & [= -> ->])]]. eauto. }
    constructor; cbn; try assumption.
    + done.
    + intros u' [= <-]. exact HU.
    + eauto.
    + intros r1 q r2 Er Hq. exfalso. eapply Hnrb; eauto.
    + intros y o Hy Hok. in_app.
      * destruct (E y o Hy Hok) as [-> [u' Hu']]. eauto.
      * split; [congruence|eauto].
    + intros Hn. split; [apply Hc, Hn|apply F, Hn].
    + intros s Hs'. destruct (G s Hs') as (G1 & G2 & G3 & G4). repeat split; try done. eauto.
  - constructor; cbn; try assumption.
    + done.
    + discriminate.
    + eauto.
    + intros r1 q r2 Er Hq. split; [done|]. subst R.
      destruct (D (QRollback t :: r1) q r2) as [_ Hr]; [done|done|]. intros q' Hq'. apply Hr. now right.
    + intros y o Hy Hok. in_app; [|congruence]. destruct (E y o Hy Hok) as [_ [u Hu]]. congruence.
    + intros Hn. split; [apply Hc, Hn|apply F, Hn].
    + intros s Hs'. destruct (G s Hs') as (G1 & G2 & G3 & G4). repeat split; try done.
      intros Hp. destruct (G3 Hp) as [u Hu]. congruence.
  - exfalso. destruct (D [] (QRollback t) R) as [Hr _]; [done|done|]. contradiction.
  - constructor; cbn; try assumption.
    + intros y o Hy Hok. in_app; [|rewrite HL in Hok by done; discriminate]. eauto.
    + intros Hn. split; [apply Hc, Hn|apply F, Hn].
Qed.

Lemma exec_rol i c c' : rol i c -> exec c c' -> rol i c'.
Proof.
  intros [A B C D E F G H] X.
  assert (HR : forall q0 R q, c_R c = q0 :: R -> q ∈ R -> q ∈ c_R c) by (intros q0 R q -> ?; now right).
  assert (Hh : forall q0 R, c_R c = q0 :: R -> is_rb q0 \/ is_lock q0 \/ is_prep q0).
  { intros q0 R E0. apply B. rewrite E0. left. }
  assert (Hrb : forall q0 R r1 q r2, c_R c = q0 :: R -> ~ is_rb q0 -> R = r1 ++ q :: r2 -> is_rb q ->
     forall q', q' ∈ r2 -> is_rb q').
  { intros q0 R r1 q r2 E0 Hn -> Hq. destruct (C (q0 :: r1) q r2) as [Hr|[_ Hr]]; [done|done|done|].
    exfalso. apply Hn, Hr. left. }
  assert (Hnok : forall q0 R q1 x q2, c_R c = q0 :: R -> ~ is_rb q0 -> c_Q c = q1 ++ x :: q2 -> ok x = Some OR -> False).
  { intros q0 R q1 x q2 E0 Hn Eq Hx. destruct (E q1 x q2 Eq Hx) as (_ & Hr & _).
    apply Hn, Hr. rewrite E0. left. }
  assert (Hc : c_sh c = None -> clean c') by (intros Hs; apply (exec_clean c); auto).
  assert (HG : forall s, c_sh c = Some s -> i < nsh /\ rol_state (ss_state s) /\ (ss_state s = SRolledBack -> clean c')).
  { intros s Hs. destruct (G s Hs) as (G1 & G2 & G3). repeat split; try done; apply (exec_clean c); auto. }
  destruct X as [t k m f R st L E0 Hst HL|t u R x E0 Ho|t u R x E0 Ho Hs|t R x E0 Ho Hn|t u R L x E0 HL Ho Hs
    |t R x E0 Ho Hs|t R L x E0 HL Ho Hs|t R x E0 Ho|t R x E0 Ho Hs|L HL];
    try (apply Hh in E0 as [[]|[[]|[]]]; fail).
  - constructor; cbn; try assumption.
    + destruct Hst as [->|[_ ->]]; [exact A|done].
    + eauto.
    + intros r1 q r2 Er Hq. left. eapply Hrb; eauto.
    + intros y o Hy Hok. in_app; [|rewrite HL in Hok by done; discriminate]. eauto.
    + intros q1 y q2 Eq Hok. exfalso. apply app_split in Eq as [(r2' & -> & Eq)|Hy].
      * eapply Hnok; eauto.
      * rewrite HL in Hok by done. discriminate.
  - constructor; cbn; try assumption.
    + eauto.
    + intros r1 q r2 Er Hq. left. eapply Hrb; eauto.
    + intros y o Hy Hok. in_app; [|congruence]. eauto.
    + intros q1 y q2 Eq Hok. exfalso. apply snoc_split in Eq as [(_ & -> & _)|(r2' & -> & Eq)]; [congruence|].
      eapply Hnok; eauto.
  - constructor; cbn; try assumption.
    + done.
    + eauto.
    + intros r1 q r2 Er Hq. left. eapply Hrb; eauto.
    + intros y o Hy Hok. in_app; [eauto|]. left. congruence.
    + intros q1 y q2 Eq Hok. exfalso. apply snoc_split in Eq as [(_ & -> & _)|(r2' & -> & Eq)]; [congruence|].
      eapply Hnok; eauto.
  - constructor; cbn; try assumption.
    + done.
    + eauto.
    + intros r1 q r2 Er Hq. subst R.
      destruct (C (QRollback t :: r1) q r2) as [Hr|[_ Hr]]; [done|done|now left|].
      right. split; [done|]. intros q' Hq'. apply Hr. now right.
    + intros y o Hy Hok. in_app; [|congruence]. eauto.
    + intros q1 y q2 Eq Hok. apply snoc_split in Eq as [(_ & -> & _)|(r2' & -> & Eq)]; [congruence|].
      destruct (E q1 y r2' Eq Hok) as (E1 & E2 & E3). split; [done|]. split; [eauto|].
      intros x' Hx'. in_app; auto.
  - constructor; cbn; try assumption.
    + done.
    + eauto.
    + intros r1 q r2 Er Hq. subst R. left.
      destruct (C [] (QRollback t) (r1 ++ q :: r2)) as [Hr|[Hr _]]; [done|done| |contradiction].
      intros q' Hq'. apply Hr. set_solver.
    + intros y o Hy Hok. in_app; [eauto| |right; congruence]. rewrite HL in Hok by done. discriminate.
    + intros q1 y q2 Eq Hok. rewrite app_assoc in Eq.
      apply snoc_split in Eq as [(-> & -> & _)|(r2' & -> & Eq)].
      * split; [done|]. split; [|intros ? []%elem_of_nil].
        destruct (C [] (QRollback t) R) as [Hr|[Hr _]]; [done|done|exact Hr|contradiction].
      * exfalso. apply app_split in Eq as [(r3 & -> & Eq)|Hy].
        -- destruct (E _ _ _ Eq Hok) as (E1 & _). contradiction.
        -- rewrite HL in Hok by done. discriminate.
  - constructor; cbn; try assumption.
    + intros y o Hy Hok. in_app; [|rewrite HL in Hok by done; discriminate]. eauto.
    + intros q1 y q2 Eq Hok. apply app_split in Eq as [(r2' & -> & Eq)|Hy].
      * destruct (E _ _ _ Eq Hok) as (E1 & E2 & E3). split; [done|]. split; [done|].
        intros x' Hx'. in_app; auto.
      * rewrite HL in Hok by done. discriminate.
Qed.

Lemma exec_pre U i c c' : pre U i c -> exec c c' -> pre U i c'.
Proof.
  intros [(s & Hsh & Hst & HR & HQ & Hc)|(Hb & Hd & Ha & Hs)] X.
  2: { destruct (exec_bystander c c' Hb X) as (Hb' & Ed & Es & Ea). right. rewrite Ed, Es, Ea. auto. }
  left. exists s.
  assert (HR' : forall q0 R q, c_R c = q0 :: R -> q ∈ R -> is_lock q \/ is_prep q \/ is_com q).
  { intros q0 R q E Hq. apply HR. rewrite E. now right. }
  assert (Hh : forall q0 R, c_R c = q0 :: R -> is_lock q0 \/ is_prep q0 \/ is_com q0).
  { intros q0 R E0. apply HR. rewrite E0. left. }
  assert (Hna : c_st c <> Absent) by (destruct Hst as [[-> _]|[-> _]]; done).
  destruct X as [t k m f R st L E0 Hst' HL|t u R x E0 Ho|t u R x E0 Ho Hs|t R x E0 Ho Hn|t u R L x E0 HL Ho Hs
    |t R x E0 Ho Hs|t R L x E0 HL Ho Hs|t R x E0 Ho|t R x E0 Ho Hs|L HL];
    try (apply Hh in E0 as [[]|[[]|[]]]; fail); cbn.
  - destruct Hst' as [->|[C _]]; [|contradiction].
    split; [done|]. split; [done|]. split; [eauto|]. split; [|done].
    intros y o Hy Hok. in_app; [|rewrite HL in Hok by done; discriminate]. eauto.
  - split; [done|]. split; [done|]. split; [eauto|]. split; [|done].
    intros y o Hy Hok. in_app; [|congruence]. eauto.
  - exfalso. destruct Hst as [[C _]|[C _]]; congruence.
  - split; [done|]. split; [done|]. split; [eauto|]. split; [|done].
    intros y o Hy Hok. in_app; [|congruence]. eauto.
  - destruct Hst as [[C Hd]|[C _]]; [|congruence]. assert (u = part loc U i) as -> by congruence.
    split; [done|]. split; [now right|]. split; [eauto|]. split; [|done].
    intros y o Hy Hok. in_app.
    + destruct (HQ y o Hy Hok) as [->|[-> _]]; auto.
    + rewrite HL in Hok by done. discriminate.
    + right. split; [congruence|done].
  - split; [done|]. split; [done|]. split; [auto|]. split; [|done].
    intros y o Hy Hok. in_app; [|rewrite HL in Hok by done; discriminate]. eauto.
Qed.

Lemma exec_cmt U i c c' : cmt U i c -> exec c c' -> cmt U i c'.
Proof.
  intros [(s & Hsh & Hd & Hst & HR & Hf & HQ & Hc)|(Hb & Hd & Ha & Hs)] X.
  2: { destruct (exec_bystander c c' Hb X) as (Hb' & Ed & Es & Ea). right. rewrite Ed, Es, Ea. auto. }
  left. exists s.
  assert (HR' : forall q0 R q, c_R c = q0 :: R -> q ∈ R -> is_lock q \/ is_prep q \/ is_com q \/ is_fin q).
  { intros q0 R q E Hq. apply HR. rewrite E. now right. }
  assert (Hh : forall q0 R, c_R c = q0 :: R -> is_lock q0 \/ is_prep q0 \/ is_com q0 \/ is_fin q0).
  { intros q0 R E0. apply HR. rewrite E0. left. }
  assert (Happ : forall q0 R, c_R c = q0 :: R -> ~ is_fin q0 -> c_st c = Applied).
  { intros q0 R E Hn. destruct Hst as [|[_ C]]; [done|]. exfalso. apply Hn, C. rewrite E. left. }
  assert (Hf' : forall q0 R r1 q r2, c_R c = q0 :: R -> R = r1 ++ q :: r2 -> is_fin q ->
      forall q', q' ∈ r2 -> is_fin q').
  { intros q0 R r1 q r2 E -> Hq. apply (Hf (q0 :: r1) q r2); [rewrite E; done|done]. }
  destruct X as [t k m f R st L E0 Hst' HL|t u R x E0 Ho|t u R x E0 Ho Hs|t R x E0 Ho Hn|t u R L x E0 HL Ho Hs
    |t R x E0 Ho Hs|t R L x E0 HL Ho Hs|t R x E0 Ho|t R x E0 Ho Hs|L HL];
    try (apply Hh in E0 as [[]|[[]|[[]|[]]]]; fail); cbn.
  - pose proof (Happ _ _ E0 (fun x => x)) as Hap. destruct Hst' as [->|[C _]]; [|congruence].
    split; [done|]. split; [done|]. split; [auto|]. split; [eauto|]. split; [eauto|]. split; [|done].
    intros y Hy Hok. in_app; [|rewrite HL in Hok by done; discriminate]. eauto.
  - pose proof (Happ _ _ E0 (fun x => x)) as Hap.
    split; [done|]. split; [done|]. split; [auto|]. split; [eauto|]. split; [eauto|]. split; [|done].
    intros y Hy Hok. in_app; [|congruence]. eauto.
  - pose proof (Happ _ _ E0 (fun x => x)) as Hap. congruence.
  - pose proof (Happ _ _ E0 (fun x => x)) as Hap.
    split; [done|]. split; [done|]. split; [auto|]. split; [eauto|]. split; [eauto|]. split; [|done].
    intros y Hy Hok. in_app; [|congruence]. eauto.
  - pose proof (Happ _ _ E0 (fun x => x)) as Hap. congruence.
  - split; [done|]. split; [done|]. split; [destruct Hst as [|[? C]]; [now left|right]|].
    { split; [done|]. intros q Hq. apply C. rewrite E0. now right. }
    split; [eauto|]. split; [eauto|]. split; [|done].
    intros y Hy Hok. in_app; [|congruence]. eauto.
  - split; [done|]. split; [done|]. split; [right; split; [done|]|].
    { intros q Hq. apply (Hf [] (QFinish t) R); [rewrite E0; done|done|done]. }
    split; [eauto|]. split; [eauto|]. split; [|done]. intros y Hy Hok. done.
  - split; [done|]. split; [done|]. split; [done|]. split; [auto|]. split; [auto|]. split; [|done].
    intros y Hy Hok. in_app; [|rewrite HL in Hok by done; discriminate]. eauto.
Qed.

Lemma exec_absent c c' : c_st c = Absent -> (forall q, q ∈ c_R c -> ~ is_lock q) -> exec c c' ->
  c_st c' = Absent /\ (forall q, q ∈ c_R c' -> ~ is_lock q) /\ c_dn c' = c_dn c /\ c_as c' = c_as c.
Proof.
  intros A B X.
  assert (HR : forall q0 R q, c_R c = q0 :: R -> q ∈ R -> ~ is_lock q).
  { intros q0 R q E Hq. apply B. rewrite E. now right. }
  destruct X as [t k m f R st L E|t u R x E Ho|t u R x E Ho|t R x E Ho Hn|t u R L x E HL Ho Hs|t R x E Ho Hs
    |t R L x E HL Ho Hs|t R x E Ho|t R x E Ho Hs|L HL]; try congruence;
    try (split; [done|]; split; [cbn; solve [eauto]|done]; fail).
  exfalso. apply (B (QLock t k m f)); [rewrite E; left|done].
Qed.

Lemma exec_idle c c' : c_R c = [] -> exec c c' ->
  c_R c' = [] /\ c_st c' = c_st c /\ c_dn c' = c_dn c /\ c_as c' = c_as c /\
  ((forall x, x ∈ c_Q c -> ok x = None) -> forall x, x ∈ c_Q c' -> ok x = None).
Proof.
  intros A X.
  destruct X; try congruence. repeat (split; [done|]). intros HQ x Hx. cbn in Hx. in_app; auto.
Qed.

(** Executing a request keeps the invariant. *)
Lemma exec_tinv st v i c' : tinv st v -> exec (w_c v i) c' -> tinv st (set_cell v i c').
Proof.
  intros [Hb H] X. destruct (exec_same _ _ X) as [Es Ea]. split.
  { apply (set_cell_all v i c' (fun _ c => base c)); [|exact Hb]. apply (exec_base (w_c v i)); auto. }
  assert (Hcell : forall P : N -> cell -> Prop, (forall c, P i c -> exec c c' -> P i c') ->
     (forall j, P j (w_c v j)) -> forall j, P j (w_c (set_cell v i c') j)).
  { intros P Hp Hall. apply set_cell_all; [|exact Hall]. apply (Hp (w_c v i)); auto. }
  assert (Hrol : rolling v -> rolling (set_cell v i c')).
  { intros [R (j & s & Hj & Hs)]. split.
    - apply (Hcell rol); [intros c; apply exec_rol|exact R].
    - exists j, s. split; [|exact Hs]. destruct (decide (j = i)) as [->|Hne].
      + rewrite set_cell_eq. congruence.
      + now rewrite set_cell_ne. }
  assert (Hgone : gone v -> gone (set_cell v i c')).
  { intros [G1 G2]. destruct (G1 i) as [Gi1 Gi2].
    destruct (exec_absent _ _ Gi1 Gi2 X) as (X1 & X2 & X3 & X4). split.
    - apply (set_cell_all v i c' (fun _ c => c_st c = Absent /\ forall q, q ∈ c_R c -> ~ is_lock q)); auto.
    - destruct G2 as [G2|(U & HU & G2)]; [left|right].
      + apply (set_cell_all v i c' (fun _ c => c_dn c = None)); [|exact G2]. rewrite X3. apply G2.
      + exists U. split; [exact HU|].
        apply (set_cell_all v i c' (fun j c => (c_as c = true -> c_dn c <> None) /\
          (forall x, c_dn c = Some x -> x = part loc U j))); [|exact G2]. rewrite X3, X4. apply G2. }
  assert (Hm : forall b, rollmode b v -> rollmode b (set_cell v i c')).
  { clear H. intros b [[? H]|[? H]]; [left; auto|right]. split; [done|].
    apply (set_cell_all v i c' (fun _ c => clean c /\ c_dn c = None)); [|exact H].
    destruct (H i) as [Hc Hd]. split; [apply (exec_clean (w_c v i)); auto|].
    destruct Hc as (C1 & C2 & C3).
    assert (C2' : forall q, q ∈ c_R (w_c v i) -> ~ is_lock q).
    { intros q Hq Hl. specialize (C2 q Hq). destruct q; done. }
    destruct (exec_absent _ _ C1 C2' X) as (_ & _ & E3 & _). congruence. }
  cbn [w_bs w_ph w_up set_cell].
  destruct (w_bs v) as [b|], (w_ph v) as [[]|]; auto.
  - destruct H as [? H]. split; [done|]. apply (Hcell (beg None)); [intros c; apply exec_beg|exact H].
  - destruct H as (U & HU & H). exists U. split; [done|].
    destruct H as [[? H]|[[? H]|[? H]]]; [left|right; left|right; right]; (split; [done|]).
    + apply (Hcell (beg (Some U))); [intros c; apply exec_beg|exact H].
    + apply (Hcell (pre U)); [intros c; apply exec_pre|exact H].
    + apply (Hcell (cmt U)); [intros c; apply exec_cmt|exact H].
  - destruct H as [H|(U & HU & H)]; [left; auto|right]. exists U. split; [done|].
    destruct H as [[? H]|[? H]]; [left|right]; (split; [done|]).
    + apply (Hcell (pre U)); [intros c; apply exec_pre|exact H].
    + apply (Hcell (cmt U)); [intros c; apply exec_cmt|exact H].
  - destruct H as [[Hf H]|H]; [left; split; [exact Hf|]|right; auto]. destruct H as [O1 O2].
    destruct (O1 i) as [Oi1 Oi2].
    destruct (exec_idle _ _ Oi1 X) as (X1 & X2 & X3 & X4 & X5). split.
    + apply (set_cell_all v i c' (fun _ c => c_R c = [] /\ forall x, x ∈ c_Q c -> ok x = None)); [|exact O1].
      auto.
    + destruct O2 as [O2|(U & HU & O2)]; [left|right].
      * apply (set_cell_all v i c' (fun _ c => c_st c <> Applied /\ c_dn c = None)); [|exact O2].
        rewrite X2, X3. apply O2.
      * exists U. split; [exact HU|].
        assert (Hj : forall j, c_st (w_c (set_cell v i c') j) = c_st (w_c v j) /\
           c_dn (w_c (set_cell v i c') j) = c_dn (w_c v j) /\ c_as (w_c (set_cell v i c') j) = c_as (w_c v j)).
        { intros j. destruct (decide (j = i)) as [->|Hne]; [rewrite set_cell_eq|rewrite set_cell_ne by done]; auto. }
        intros j. cbn zeta. destruct (Hj j) as (-> & -> & ->). destruct (O2 j) as [(A & B & C)|A]; [left|right; exact A].
        split; [done|]. split; [done|]. intros Ha j'. destruct (Hj j') as (_ & -> & ->). now apply C.
  - destruct (H i) as (N1 & N2 & N3 & N4 & N5).
    destruct (exec_idle _ _ N2 X) as (X1 & X2 & X3 & X4 & X5). unfold never. cbn zeta.
    apply (set_cell_all v i c' (fun _ c => c_st c = Absent /\ c_R c = [] /\
      (forall x, x ∈ c_Q c -> ok x = None) /\ c_dn c = None /\ c_as c = false)); [|exact H].
    cbn beta. rewrite X2, X3, X4. auto.
Qed.

(** ** The broker drops an answer *)

Definition pop (c : cell) (Q : list (cont * rsp)) : cell :=
  Cell (c_st c) (c_R c) Q (c_dn c) (c_sh c) (c_as c).

Lemma pop_clean c x Q : c_Q c = x :: Q -> clean c -> clean (pop c Q).
Proof. intros E (A & B & C). split; [done|]. split; [done|]. intros y Hy. apply C. rewrite E. now right. Qed.
Lemma pop_bystander c x Q : c_Q c = x :: Q -> bystander c -> bystander (pop c Q).
Proof. intros E (A & B & C). split; [done|]. split; [done|]. intros y Hy. apply C. rewrite E. now right. Qed.

Lemma pop_beg uo i c x Q : c_Q c = x :: Q -> beg uo i c -> beg uo i (pop c Q).
Proof.
  intros E [A B C D F G H I]. constructor; cbn; try assumption.
  - intros y o Hy. apply F. rewrite E. now right.
  - intros Hn. split; [eapply pop_clean; [exact E|]; now apply G|now apply G].
Qed.
Lemma pop_rol i c x Q : c_Q c = x :: Q -> rol i c -> rol i (pop c Q).
Proof.
  intros E [A B C D F G H I]. constructor; cbn; try assumption.
  - intros y o Hy. apply D. rewrite E. now right.
  - intros q1 y q2 Eq. apply (F (x :: q1) y q2). now rewrite E, Eq.
  - intros Hn. eapply pop_clean; [exact E|]. now apply G.
  - intros s Hs. destruct (H s Hs) as (H1 & H2 & H3). repeat split; try done; eapply pop_clean; eauto.
Qed.
Lemma pop_pre U i c x Q : c_Q c = x :: Q -> pre U i c -> pre U i (pop c Q).
Proof.
  intros E [(s & A & B & C & D & F)|(A & B & C & D)]; [left|right].
  - exists s. cbn. repeat (split; [done|]). split; [|done]. intros y o Hy. apply D. rewrite E. now right.
  - split; [eapply pop_bystander; eauto|done].
Qed.
Lemma pop_cmt U i c x Q : c_Q c = x :: Q -> cmt U i c -> cmt U i (pop c Q).
Proof.
  intros E [(s & A & B & C & D & F & G & H)|(A & B & C & D)]; [left|right].
  - exists s. cbn. repeat (split; [done|]). split; [|done]. intros y Hy. apply G. rewrite E. now right.
  - split; [eapply pop_bystander; eauto|done].
Qed.

Lemma pop_tinv st v i x Q : c_Q (w_c v i) = x :: Q -> tinv st v -> tinv st (set_cell v i (pop (w_c v i) Q)).
Proof.
  intros E [Hb H]. split.
  { apply (set_cell_all v i _ (fun _ c => base c)); [|exact Hb]. apply (Hb i). }
  assert (Hcell : forall P : N -> cell -> Prop, (P i (w_c v i) -> P i (pop (w_c v i) Q)) ->
     (forall j, P j (w_c v j)) -> forall j, P j (w_c (set_cell v i (pop (w_c v i) Q)) j)).
  { intros P Hp Hall. apply set_cell_all; [|exact Hall]. apply Hp, Hall. }
  assert (Hj : forall j, let c' := w_c (set_cell v i (pop (w_c v i) Q)) j in
     c_st c' = c_st (w_c v j) /\ c_dn c' = c_dn (w_c v j) /\ c_as c' = c_as (w_c v j) /\
     c_R c' = c_R (w_c v j) /\ c_sh c' = c_sh (w_c v j) /\
     forall y, y ∈ c_Q c' -> y ∈ c_Q (w_c v j)).
  { intros j. cbn zeta. destruct (decide (j = i)) as [->|Hne]; [rewrite set_cell_eq|rewrite set_cell_ne by done]; cbn.
    - repeat (split; [done|]). intros y Hy. rewrite E. now right.
    - auto 10. }
  assert (Hrol : rolling v -> rolling (set_cell v i (pop (w_c v i) Q))).
  { intros [R (j & s & Hs)]. split; [apply (Hcell rol); [eapply pop_rol; eauto|exact R]|].
    exists j, s. destruct (Hj j) as (_ & _ & _ & _ & -> & _). exact Hs. }
  assert (Hgone : gone v -> gone (set_cell v i (pop (w_c v i) Q))).
  { intros [G1 G2]. split.
    - intros j. destruct (Hj j) as (-> & _ & _ & -> & _). apply G1.
    - destruct G2 as [G2|(U & HU & G2)]; [left|right].
      + intros j. destruct (Hj j) as (_ & -> & _). apply G2.
      + exists U. split; [exact HU|]. intros j. destruct (Hj j) as (_ & -> & -> & _). apply G2. }
  assert (Hm : forall b, rollmode b v -> rollmode b (set_cell v i (pop (w_c v i) Q))).
  { clear H. intros b [[? H]|[? H]]; [left; auto|right]. split; [done|].
    apply (Hcell (fun _ c => clean c /\ c_dn c = None)); [|exact H].
    intros [C D]. split; [eapply pop_clean; eauto|exact D]. }
  cbn [w_bs w_ph w_up set_cell].
  destruct (w_bs v) as [b|], (w_ph v) as [[]|]; auto.
  - destruct H as [? H]. split; [done|]. apply (Hcell (beg None)); [eapply pop_beg; eauto|exact H].
  - destruct H as (U & HU & H). exists U. split; [done|].
    destruct H as [[? H]|[[? H]|[? H]]]; [left|right; left|right; right]; (split; [done|]).
    + apply (Hcell (beg (Some U))); [eapply pop_beg; eauto|exact H].
    + apply (Hcell (pre U)); [eapply pop_pre; eauto|exact H].
    + apply (Hcell (cmt U)); [eapply pop_cmt; eauto|exact H].
  - destruct H as [H|(U & HU & H)]; [left; auto|right]. exists U. split; [done|].
    destruct H as [[? H]|[? H]]; [left|right]; (split; [done|]).
    + apply (Hcell (pre U)); [eapply pop_pre; eauto|exact H].
    + apply (Hcell (cmt U)); [eapply pop_cmt; eauto|exact H].
  - destruct H as [[Hf H]|H]; [left; split; [exact Hf|]|right; auto]. destruct H as [O1 O2]. split.
    + intros j. destruct (Hj j) as (_ & _ & _ & -> & _ & HQ). destruct (O1 j). auto.
    + destruct O2 as [O2|(U & HU & O2)]; [left|right].
      * intros j. destruct (Hj j) as (-> & -> & _). apply O2.
      * exists U. split; [exact HU|]. intros j. cbn zeta. destruct (Hj j) as (-> & -> & -> & _).
        destruct (O2 j) as [(A & B & C)|A]; [left|right; exact A].
        split; [done|]. split; [done|]. intros Ha j'. destruct (Hj j') as (_ & -> & -> & _). now apply C.
  - intros j. cbn zeta. destruct (Hj j) as (-> & -> & -> & -> & _ & HQ).
    destruct (H j) as (N1 & N2 & N3 & N4 & N5). auto 10.
Qed.

End Inv.
