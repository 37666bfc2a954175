From stdpp Require Import base option list.
From Coq Require Import NArith Lia.
From Verif Require Import Base CodecModel CodecSpec CodecProofs MsgModel ServerModel ServerSpec
  ServerProofs.
Open Scope N_scope.

Lemma failure_made b : make_failure_response b =
  match from_buffer c_u64 b with
  | Ok (Some id) s => Ok (Some (failure_response id)) s
  | Ok None s => Ok None s
  | Throw => Throw
  | NoFuel => NoFuel
  end.
Proof. reflexivity. Qed.

Section raft.
Context {Q R S : Type} (cq : codec Q) (cr : codec R) (h : S -> Q -> S * option R) (s0 : S).
Hypothesis Lq : lawful cq.
Hypothesis Lr : lawful cr.

Notation commit := (sm_commit cq cr h).
Notation replay := (sm_replay cq cr h).

Definition from_log (s : @raft S) (c : nat) (pkt b : bytes) : Prop :=
  exists i st st', (i < rf_applied s)%nat /\ rf_log s !! i = Some (Some c, pkt) /\
    replay s0 (map snd (take i (rf_log s))) = Done st /\ commit st pkt = Done (st', Some b).

Record rf_ok (s : @raft S) : Prop := {
  ok_len : length (rf_pending s) = length (rf_requests s);
  ok_dom : forall c p id b, rf_requests s !! c = Some (p, id, b) -> dom c_u64 id;
  ok_tags : Forall (fun x => (x.1.1 < length (rf_requests s))%nat) (rf_sent s);
  ok_wait : forall c, rf_pending s !! c = Some true -> replies c (rf_sent s) = [];
  ok_done : forall c p id pkt, rf_requests s !! c = Some (p, id, pkt) ->
    rf_pending s !! c = Some false ->
    exists b, replies c (rf_sent s) = [(p, b)] /\ (b = failure_response id \/ from_log s c pkt b);
  ok_log : forall i c b, rf_log s !! i = Some (Some c, b) ->
    exists p id, rf_requests s !! c = Some (p, id, b);
  ok_applied : (rf_applied s <= length (rf_log s))%nat;
  ok_state : replay s0 (map snd (take (rf_applied s) (rf_log s))) = Done (rf_state s);
  ok_served : forall i c b, (i < rf_applied s)%nat -> rf_log s !! i = Some (Some c, b) ->
    rf_pending s !! c = Some false
}.

Lemma replay_app s l m : replay s (l ++ m) =
  match replay s l with Done s' => replay s' m | Over => Over end.
Proof.
  revert s. induction l as [|b l IH]; intros s; [reflexivity|]. cbn [app sm_replay].
  destruct (commit s b) as [[s' r]|]; [apply IH|reflexivity].
Qed.

Lemma raft_init_ok : rf_ok (raft_init s0).
Proof.
  split; cbn; try done; try constructor; try lia.
Qed.

Lemma fresh_none (c n : nat) (l : list (nat * N * bytes)) : (n <= c)%nat ->
  Forall (fun x => (x.1.1 < n)%nat) l -> replies c l = [].
Proof.
  intros Hc F. induction F as [|[[c' p] b] r F1 _ IH]; [reflexivity|].
  cbn [replies]. cbn in F1. rewrite (proj2 (Nat.eqb_neq c' c)) by lia. exact IH.
Qed.

(** A request that waited is answered. *)
Lemma answer_ok s c p id pkt b (log : list (option nat * bytes)) ap st :
  rf_ok s -> rf_requests s !! c = Some (p, id, pkt) -> rf_pending s !! c = Some true ->
  log = rf_log s -> (rf_applied s <= ap)%nat ->
  let s' := Raft (rf_requests s) (<[c := false]> (rf_pending s)) log ap st
              (rf_sent s ++ [(c, p, b)]) in
  (b = failure_response id \/ from_log s' c pkt b) ->
  (ap <= length log)%nat ->
  replay s0 (map snd (take ap log)) = Done st ->
  (forall i c' b', (rf_applied s <= i)%nat -> (i < ap)%nat ->
     log !! i = Some (Some c', b') -> c' = c) ->
  rf_ok s'.
Proof.
  intros K Hc Hp -> Hap s' Hb Hal Hst Hnew. destruct K as [Kl Kd Kt Kw Kn Kg Ka Ks Kv].
  pose proof (lookup_lt_Some _ _ _ Hp) as Lt.
  split; unfold s'; cbn [rf_requests rf_pending rf_log rf_applied rf_state rf_sent].
  - by rewrite insert_length.
  - exact Kd.
  - apply Forall_app. split; [exact Kt|]. constructor; [cbn; lia|constructor].
  - intros c' Hc'. destruct (decide (c' = c)) as [->|N].
    + rewrite list_lookup_insert in Hc' by exact Lt. discriminate.
    + rewrite list_lookup_insert_ne in Hc' by congruence.
      rewrite replies_app, Kw by exact Hc'. cbn [replies].
      by rewrite (proj2 (Nat.eqb_neq c c')) by congruence.
  - intros c' p' id' pkt' Hr' Hc'. destruct (decide (c' = c)) as [->|N].
    + rewrite Hr' in Hc. injection Hc as -> -> ->. exists b.
      rewrite replies_app, Kw by exact Hp. cbn [replies]. rewrite Nat.eqb_refl. cbn [app].
      split; [reflexivity|]. exact Hb.
    + rewrite list_lookup_insert_ne in Hc' by congruence.
      destruct (Kn c' p' id' pkt' Hr' Hc') as (b' & Er & Hb'). exists b'.
      rewrite replies_app, Er. cbn [replies].
      rewrite (proj2 (Nat.eqb_neq c c')) by congruence. split; [reflexivity|].
      destruct Hb' as [Hb'|(i & st1 & st2 & Hi & Hl & H1 & H2)]; [by left|right].
      exists i, st1, st2. cbn. split; [lia|done].
  - exact Kg.
  - exact Hal.
  - exact Hst.
  - intros i c' b' Hi Hl. destruct (decide (c' = c)) as [->|N].
    + by apply list_lookup_insert.
    + rewrite list_lookup_insert_ne by congruence.
      destruct (decide (i < rf_applied s)%nat) as [Hi'|Hi']; [exact (Kv i c' b' Hi' Hl)|].
      exfalso. apply N. apply (Hnew i c' b'); [lia|done|done].
Qed.

Lemma raft_step_ok s e s' : rf_ok s -> real_packet e -> raft_step cq cr h s e = Next s' ->
  rf_ok s'.
Proof.
  intros K Re H. destruct e as [p b leader accepted|b|n| |c]; cbn [raft_step] in H.
  - rewrite failure_made in H.
    destruct (from_buffer c_u64 b) as [[id|] s1| |] eqn:E; try discriminate.
    2:{ injection H as <-. exact K. }
    pose proof (u64_read b id s1 Re E) as Did.
    destruct K as [Kl Kd Kt Kw Kn Kg Ka Ks Kv].
    set (n := length (rf_requests s)) in *.
    assert (Hd : forall c p' id' b', (rf_requests s ++ [(p, id, b)]) !! c = Some (p', id', b') ->
              dom c_u64 id').
    { intros c p' id' b' Hc. apply lookup_app_Some in Hc as [Hc|[_ Hc]]; [by eapply Kd|].
      apply list_lookup_singleton_Some in Hc as [_ [= <- <- <-]]. exact Did. }
    assert (Hold : forall c v w, (rf_pending s ++ [v]) !! c = Some w ->
              (rf_pending s !! c = Some w /\ (c < n)%nat) \/ (c = n /\ w = v)).
    { intros c v w Hc. apply lookup_app_Some in Hc as [Hc|[Hge Hc]].
      - left. split; [exact Hc|]. apply lookup_lt_Some in Hc. lia.
      - right. apply list_lookup_singleton_Some in Hc as [Hz <-]. split; [|done]. lia. }
    destruct (leader && accepted); injection H as <-;
      (split; cbn [rf_requests rf_pending rf_log rf_applied rf_state rf_sent]).
    + rewrite !app_length. cbn. lia.
    + exact Hd.
    + rewrite app_length. eapply Forall_impl; [exact Kt|]. intros x Hx. cbn in *. lia.
    + intros c Hc. destruct (Hold c _ _ Hc) as [[Hc' _]|[-> _]]; [by apply Kw|].
      by apply (fresh_none n n).
    + intros c p' id' pkt Hr Hc. destruct (Hold c _ _ Hc) as [[Hc' Hlt]|[_ ?]]; [|discriminate].
      rewrite lookup_app_l in Hr by exact Hlt.
      destruct (Kn c p' id' pkt Hr Hc') as (b' & Er & Hb). exists b'. split; [exact Er|].
      destruct Hb as [Hb|(i & st1 & st2 & Hi & Hl & H1 & H2)]; [by left|right].
      exists i, st1, st2. cbn. split; [exact Hi|]. split; [by apply lookup_app_l_Some|].
      split; [|exact H2]. rewrite take_app_le by lia. exact H1.
    + intros i c b' Hl. apply lookup_app_Some in Hl as [Hl|[_ Hl]].
      * destruct (Kg i c b' Hl) as (p' & id' & Hr). exists p', id'. by apply lookup_app_l_Some.
      * apply list_lookup_singleton_Some in Hl as [_ [= <- <-]]. exists p, id.
        rewrite lookup_app_r by (fold n; lia). fold n. by rewrite Nat.sub_diag.
    + rewrite app_length. lia.
    + rewrite take_app_le by lia. exact Ks.
    + intros i c b' Hi Hl. rewrite lookup_app_l in Hl by lia.
      apply lookup_app_l_Some. exact (Kv i c b' Hi Hl).
    + rewrite !app_length. cbn. lia.
    + exact Hd.
    + rewrite app_length. apply Forall_app. split.
      * eapply Forall_impl; [exact Kt|]. intros x Hx. cbn in *. lia.
      * constructor; [cbn; fold n; lia|constructor].
    + intros c Hc. destruct (Hold c _ _ Hc) as [[Hc' Hlt]|[_ ?]]; [|discriminate].
      rewrite replies_app, Kw by exact Hc'. cbn [replies].
      by rewrite (proj2 (Nat.eqb_neq n c)) by lia.
    + intros c p' id' pkt Hr Hc. rewrite replies_app. cbn [replies].
      destruct (Hold c _ _ Hc) as [[Hc' Hlt]|[-> _]].
      * rewrite lookup_app_l in Hr by exact Hlt.
        destruct (Kn c p' id' pkt Hr Hc') as (b' & Er & Hb). exists b'.
        rewrite Er, (proj2 (Nat.eqb_neq n c)) by lia. split; [reflexivity|].
        destruct Hb as [Hb|(i & st1 & st2 & Hi & Hl & H1 & H2)]; [by left|right].
        by exists i, st1, st2.
      * rewrite lookup_app_r in Hr by (fold n; lia). fold n in Hr.
        rewrite Nat.sub_diag in Hr. cbn in Hr. injection Hr as <- <- <-.
        rewrite (fresh_none n n) by done. rewrite Nat.eqb_refl. eexists.
        split; [reflexivity|by left].
    + intros i c b' Hl. destruct (Kg i c b' Hl) as (p' & id' & Hr). exists p', id'.
      by apply lookup_app_l_Some.
    + exact Ka.
    + exact Ks.
    + intros i c b' Hi Hl. apply lookup_app_l_Some. exact (Kv i c b' Hi Hl).
  - injection H as <-. destruct K as [Kl Kd Kt Kw Kn Kg Ka Ks Kv].
    split; cbn [rf_requests rf_pending rf_log rf_applied rf_state rf_sent]; try done.
    + intros c p' id' pkt Hr Hc.
      destruct (Kn c p' id' pkt Hr Hc) as (b' & Er & Hb). exists b'. split; [exact Er|].
      destruct Hb as [Hb|(i & st1 & st2 & Hi & Hl & H1 & H2)]; [by left|right].
      exists i, st1, st2. cbn. split; [exact Hi|]. split; [by apply lookup_app_l_Some|].
      split; [|exact H2]. rewrite take_app_le by lia. exact H1.
    + intros i c b' Hl. apply lookup_app_Some in Hl as [Hl|[_ Hl]]; [by eapply Kg|].
      apply list_lookup_singleton_Some in Hl as [_ ?]. discriminate.
    + rewrite app_length. lia.
    + rewrite take_app_le by lia. exact Ks.
    + intros i c b' Hi Hl. rewrite lookup_app_l in Hl by lia. exact (Kv i c b' Hi Hl).
  - destruct (decide (rf_applied s <= n)%nat) as [Hn|]; [|discriminate]. injection H as <-.
    destruct K as [Kl Kd Kt Kw Kn Kg Ka Ks Kv].
    split; cbn [rf_requests rf_pending rf_log rf_applied rf_state rf_sent]; try done.
    + intros c p' id' pkt Hr Hc.
      destruct (Kn c p' id' pkt Hr Hc) as (b' & Er & Hb). exists b'. split; [exact Er|].
      destruct Hb as [Hb|(i & st1 & st2 & Hi & Hl & H1 & H2)]; [by left|right].
      exists i, st1, st2. cbn. split; [exact Hi|]. split.
      { rewrite lookup_take by lia. exact Hl. }
      split; [|exact H2]. rewrite take_take, Nat.min_l by lia. exact H1.
    + intros i c b' Hl. apply lookup_take_Some in Hl as [Hl _]. by eapply Kg.
    + rewrite take_length. lia.
    + rewrite take_take, Nat.min_l by lia. exact Ks.
    + intros i c b' Hi Hl. apply lookup_take_Some in Hl as [Hl _]. exact (Kv i c b' Hi Hl).
  - destruct (rf_log s !! rf_applied s) as [[o b]|] eqn:El; [|discriminate].
    destruct (commit (rf_state s) b) as [[st r]|] eqn:Ec; [|discriminate].
    pose proof (lookup_lt_Some _ _ _ El) as Lt.
    assert (Hst : replay s0 (map snd (take (1 + rf_applied s) (rf_log s))) = Done st).
    { change (1 + rf_applied s)%nat with (Datatypes.S (rf_applied s)).
      rewrite (take_S_r _ _ _ El), map_app, replay_app, (ok_state _ K).
      cbn [map snd sm_replay]. by rewrite Ec. }
    assert (Hsilent : (forall c, o = Some c -> rf_pending s !! c = Some false) ->
              rf_ok (Raft (rf_requests s) (rf_pending s) (rf_log s) (1 + rf_applied s) st
                       (rf_sent s))).
    { intros Ho. destruct K as [Kl Kd Kt Kw Kn Kg Ka Ks Kv].
      split; cbn [rf_requests rf_pending rf_log rf_applied rf_state rf_sent]; try done.
      - intros c p' id' pkt Hr Hc.
        destruct (Kn c p' id' pkt Hr Hc) as (b' & Er & Hb). exists b'. split; [exact Er|].
        destruct Hb as [Hb|(i & st1 & st2 & Hi & Hl & H1 & H2)]; [by left|right].
        exists i, st1, st2. cbn. split; [lia|done].
      - intros i c b' Hi Hl. destruct (decide (i < rf_applied s)%nat) as [Hi'|Hi'].
        + exact (Kv i c b' Hi' Hl).
        + replace i with (rf_applied s) in Hl by lia. rewrite El in Hl.
          injection Hl as -> ->. by apply Ho. }
    destruct o as [c|]; [|injection H as <-; apply Hsilent; discriminate].
    destruct (ok_log _ K _ _ _ El) as (p & id & Hr). rewrite Hr in H.
    assert (exists w, rf_pending s !! c = Some w) as [w Hw].
    { apply lookup_lt_is_Some. rewrite (ok_len _ K). by eapply lookup_lt_Some. }
    rewrite Hw in H. destruct w.
    + injection H as <-. eapply answer_ok; try done.
      * lia.
      * destruct r as [x|]; [right|by left]. cbn [default].
        exists (rf_applied s), (rf_state s), st. cbn. split; [lia|]. split; [exact El|].
        split; [exact (ok_state _ K)|exact Ec].
      * intros i c' b' H1 H2 Hl. replace i with (rf_applied s) in Hl by lia.
        rewrite El in Hl. congruence.
    + injection H as <-. apply Hsilent. by intros c' [= <-].
  - destruct (rf_requests s !! c) as [[[p id] pkt]|] eqn:Hr; [|discriminate].
    destruct (rf_pending s !! c) as [[]|] eqn:Hp; try discriminate. injection H as <-.
    eapply answer_ok; try done.
    + by left.
    + apply (ok_applied _ K).
    + apply (ok_state _ K).
    + lia.
Qed.

Lemma raft_run_ok l s s' : rf_ok s -> Forall real_packet l -> raft_run cq cr h s l = Next s' ->
  rf_ok s'.
Proof.
  intros K F. revert s K. induction F as [|e l Re _ IH]; intros s K H.
  - by injection H as <-.
  - cbn [raft_run] in H. destruct (raft_step cq cr h s e) as [s1| |] eqn:E; try discriminate.
    exact (IH s1 (raft_step_ok s e s1 K Re E) H).
Qed.

Hypothesis Hdom : forall st q, dom (c_option cr) (snd (h st q)).

(** What the state machine makes of a packet. *)
Lemma commit_reads st st' pkt b id s1 : Forall is_byte pkt ->
  from_buffer c_u64 pkt = Ok (Some id) s1 -> commit st pkt = Done (st', Some b) ->
  exists q s2, from_buffer (c_rpc_request cq) pkt = Ok (Some (id, q)) s2 /\
    st' = fst (h st q) /\ client_reads cr b id (snd (h st q)).
Proof.
  intros F E C. unfold sm_commit, blocking_call, deserialize_request in C.
  destruct (from_buffer (c_rpc_request cq) pkt) as [[[id' q]|] s2| |] eqn:D; try discriminate.
  destruct (request_header cq pkt id' q s2 Lq D) as [s3 E2]. rewrite E in E2.
  injection E2 as <- _.
  destruct (h st q) as [s' r] eqn:Eh. injection C as <- <-. exists q, s2. rewrite Eh.
  split; [reflexivity|]. split; [reflexivity|].
  apply reads_response; [exact Lr|exact (u64_read _ _ _ F E)|].
  pose proof (Hdom st q) as Hd. by rewrite Eh in Hd.
Qed.

(** The requests a run holds were packets of real bytes with that header. *)
Definition good_request (x : N * N * bytes) : Prop :=
  Forall is_byte x.2 /\ exists s1, from_buffer c_u64 x.2 = Ok (Some x.1.2) s1.
Lemma good_step s e s' : real_packet e -> raft_step cq cr h s e = Next s' ->
  Forall good_request (rf_requests s) -> Forall good_request (rf_requests s').
Proof.
  intros Re H G. destruct e as [p b leader accepted|b|n| |c]; cbn [raft_step] in H.
  - rewrite failure_made in H.
    destruct (from_buffer c_u64 b) as [[id|] s1| |] eqn:E; try discriminate.
    + destruct (leader && accepted); injection H as <-; cbn [rf_requests];
        (apply Forall_app; split; [exact G|]; constructor; [|constructor];
         split; [exact Re|exists s1; exact E]).
    + by injection H as <-.
  - by injection H as <-.
  - destruct (decide (rf_applied s <= n)%nat); [|discriminate]. by injection H as <-.
  - destruct (rf_log s !! rf_applied s) as [[o b]|]; [|discriminate].
    destruct (commit (rf_state s) b) as [[st r]|]; [|discriminate].
    destruct o as [c|]; [|by injection H as <-].
    destruct (rf_requests s !! c) as [[[p id] pkt]|]; [|by injection H as <-].
    destruct (rf_pending s !! c) as [[]|]; by injection H as <-.
  - destruct (rf_requests s !! c) as [[[p id] pkt]|]; [|discriminate].
    destruct (rf_pending s !! c) as [[]|]; try discriminate. by injection H as <-.
Qed.
Lemma good_run l s s' : Forall real_packet l -> raft_run cq cr h s l = Next s' ->
  Forall good_request (rf_requests s) -> Forall good_request (rf_requests s').
Proof.
  intros F. revert s. induction F as [|e l Re _ IH]; intros s H G.
  - by injection H as <-.
  - cbn [raft_run] in H. destruct (raft_step cq cr h s e) as [s1| |] eqn:E; try discriminate.
    exact (IH s1 H (good_step s e s1 Re E G)).
Qed.

Lemma raft_once l s c p id pkt : Forall real_packet l ->
  raft_run cq cr h (raft_init s0) l = Next s -> rf_requests s !! c = Some (p, id, pkt) ->
  (rf_pending s !! c = Some true /\ replies c (rf_sent s) = []) \/
  (rf_pending s !! c = Some false /\ exists b, replies c (rf_sent s) = [(p, b)] /\
    (client_reads cr b id None \/
     exists i st q s2, (i < rf_applied s)%nat /\ rf_log s !! i = Some (Some c, pkt) /\
       replay s0 (map snd (take i (rf_log s))) = Done st /\
       from_buffer (c_rpc_request cq) pkt = Ok (Some (id, q)) s2 /\
       client_reads cr b id (snd (h st q)))).
Proof.
  intros F H Hc. pose proof (raft_run_ok l _ s raft_init_ok F H) as K.
  pose proof (good_run l _ s F H (List.Forall_nil _)) as G.
  destruct (rf_pending s !! c) as [[]|] eqn:Hp.
  - left. split; [reflexivity|]. by apply (ok_wait _ K).
  - right. split; [reflexivity|].
    destruct (ok_done _ K c p id pkt Hc Hp) as (b & Er & Hb). exists b. split; [exact Er|].
    destruct Hb as [->|(i & st & st' & Hi & Hl & H1 & H2)].
    + left. apply reads_failure; [exact Lr|]. exact (ok_dom _ K c p id pkt Hc).
    + right. destruct (proj1 (Forall_lookup _ _) G c _ Hc) as [Fb [s1 E]]. cbn in Fb, E.
      destruct (commit_reads st st' pkt b id s1 Fb E H2) as (q & s2 & D & _ & Rd).
      by exists i, st, q, s2.
  - exfalso. apply lookup_ge_None in Hp. apply lookup_lt_Some in Hc.
    rewrite (ok_len _ K) in Hp. lia.
Qed.

Lemma raft_served l s i c pkt : Forall real_packet l ->
  raft_run cq cr h (raft_init s0) l = Next s -> (i < rf_applied s)%nat ->
  rf_log s !! i = Some (Some c, pkt) ->
  exists p id b, rf_requests s !! c = Some (p, id, pkt) /\ replies c (rf_sent s) = [(p, b)].
Proof.
  intros F H Hi Hl. pose proof (raft_run_ok l _ s raft_init_ok F H) as K.
  destruct (ok_log _ K _ _ _ Hl) as (p & id & Hr).
  destruct (ok_done _ K c p id pkt Hr (ok_served _ K i c pkt Hi Hl)) as (b & Er & _).
  by exists p, id, b.
Qed.

(** ** The log *)
Lemma replay_survives s log :
  Forall (fun b => from_buffer (c_rpc_request cq) b <> Throw) log ->
  exists s', replay s log = Done s'.
Proof.
  intros F. revert s. induction F as [|b l Hb _ IH]; intros s; [by exists s|].
  cbn [sm_replay]. unfold sm_commit, blocking_call, deserialize_request.
  pose proof (from_buffer_fuel (c_rpc_request cq) b (lawful_request cq Lq)) as NF.
  destruct (from_buffer (c_rpc_request cq) b) as [[[id q]|] s2| |]; try done.
  - destruct (h s q) as [s' r]. apply IH.
Qed.
Lemma replay_poisoned s l b m : from_buffer (c_rpc_request cq) b = Throw ->
  replay s (l ++ b :: m) = Over.
Proof.
  intros T. rewrite replay_app. destruct (replay s l) as [s'|]; [|reflexivity].
  cbn [sm_replay]. unfold sm_commit, blocking_call, deserialize_request. by rewrite T.
Qed.
End raft.
