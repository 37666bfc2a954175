(** The invariant of the two-phase-commit system, one view per distributed
    transaction. *)
From Coq Require Import NArith List Bool Lia Arith.
From stdpp Require Import base decidable list gmap.
From Verif Require Import Base CodecModel TxModel CacheModel LockingShardModel
  LockingShardSpec LockingShardProofs LockingShardCorollaries TwoPhaseModel TwoPhaseSpec
  TwoPhaseNode.
Import ListNotations.
Open Scope N_scope.

Section System.
Context (cfgs : list shard_cfg) (preseeds : list (gset N)) (cache : N).
Let n := length cfgs.
Let rs := ranges cfgs.

Definition pidx (B : list compact_tx) (i : nat) : list nat :=
  match cfgs !! i with Some c => part_idxs (sc_range c) B | None => [] end.
Definition ptxs (B : list compact_tx) (i : nat) : list compact_tx :=
  match cfgs !! i with Some c => part_txs (sc_range c) B | None => [] end.
Definition idxs_of (B : list compact_tx) : list (list nat) :=
  map (fun r => part_idxs r B) rs.
Definition txs_of (B : list compact_tx) : list (list compact_tx) :=
  map (fun r => part_txs r B) rs.

Lemma rs_length : length rs = n.
Proof. unfold rs, ranges. apply map_length. Qed.

Lemma idxs_of_lookup B i ks :
  idxs_of B !! i = Some ks -> ks = pidx B i /\ (i < n)%nat.
Proof.
  unfold idxs_of, pidx, rs, ranges. rewrite map_map, list_lookup_fmap.
  destruct (cfgs !! i) eqn:E; cbn; intros H; inv H. split; [done|].
  apply lookup_lt_Some in E. done.
Qed.
Lemma idxs_of_lookup' B i : (i < n)%nat -> idxs_of B !! i = Some (pidx B i).
Proof.
  intros H. unfold idxs_of, pidx, rs, ranges. rewrite map_map, list_lookup_fmap.
  destruct (lookup_lt_is_Some_2 cfgs i H) as [c ->]. done.
Qed.
Lemma txs_of_lookup B i ts : txs_of B !! i = Some ts -> ts = ptxs B i.
Proof.
  unfold txs_of, ptxs, rs, ranges. rewrite map_map, list_lookup_fmap.
  destruct (cfgs !! i) eqn:E; cbn; intros H; inv H. done.
Qed.
Lemma idxs_of_length B : length (idxs_of B) = n.
Proof. unfold idxs_of. rewrite map_length. apply rs_length. Qed.
Lemma pidx_ptxs B i : length (pidx B i) = length (ptxs B i).
Proof. unfold pidx, ptxs. destruct (cfgs !! i); [apply part_lengths|done]. Qed.
Lemma pidx_bound B i k : In k (pidx B i) -> (k < length B)%nat.
Proof. unfold pidx. destruct (cfgs !! i); [apply part_idxs_bound|intros []]. Qed.
Lemma pidx_lt B i : pidx B i <> [] -> (i < n)%nat.
Proof.
  unfold pidx. destruct (cfgs !! i) eqn:E; [|done]. intros _.
  now apply lookup_lt_Some in E.
Qed.

(** The decision: what the merged answers say. *)
Definition decided (B : list compact_tx) (C : list bool) (R : nat -> list bool) : Prop :=
  length C = length B /\
  forall k, C !! k = Some true <->
    (k < length B)%nat /\
    forall i j, pidx B i !! j = Some k -> R i !! j = Some true.

Definition plan (B : list compact_tx) (x : dtx) : Prop :=
  dx_full x = B /\ dx_txs x = txs_of B /\ dx_idxs x = idxs_of B.

Definition applied_at (d : N) (B : list compact_tx) (C : list bool) (R : nat -> list bool)
    (nd : node) (i : nat) : Prop :=
  exists flags, shard_flags C (pidx B i) = Some flags /\
    st_applied nd d (ptxs B i) (R i) flags.

Inductive view (d : N) (B : list compact_tx) (ns : list node)
  : option (list compact_tx) -> option (list bool * list (list nat)) -> bool ->
    option dtx -> option (list bool) -> Prop :=
| V0 th :
    (forall i nd, ns !! i = Some nd -> st_none nd d) ->
    (forall x, th = Some x -> plan B x /\ dx_phase x = PhStart) ->
    view d B ns None None false th None
| V1 th :
    (forall i nd, ns !! i = Some nd ->
       st_none nd d \/
       (pidx B i <> [] /\ exists res, st_locked nd d (ptxs B i) res)) ->
    (forall x, th = Some x -> plan B x /\
       exists got, dx_phase x = PhPrepare got /\ length got = n /\
         forall i nd res, ns !! i = Some nd -> got !! i = Some (Some res) ->
           st_locked nd d (ptxs B i) res) ->
    view d B ns (Some B) None false th None
| V2 th C R :
    decided B C R ->
    (forall i nd, ns !! i = Some nd ->
       (pidx B i = [] /\ st_none nd d) \/
       (pidx B i <> [] /\
         (st_locked nd d (ptxs B i) (R i) \/
          (applied_at d B C R nd i /\ recalled nd d)))) ->
    (forall x, th = Some x -> dx_idxs x = idxs_of B /\ dx_complete x = C /\
       exists acked, dx_phase x = PhCommit acked /\ length acked = n /\
         forall i nd, ns !! i = Some nd -> pidx B i <> [] -> acked !! i = Some true ->
           applied_at d B C R nd i /\ recalled nd d) ->
    view d B ns None (Some (C, idxs_of B)) false th None
| V3 th C R :
    decided B C R ->
    (forall i nd, ns !! i = Some nd ->
       (pidx B i = [] /\ st_none nd d) \/
       (pidx B i <> [] /\ applied_at d B C R nd i)) ->
    (forall x, th = Some x ->
       (exists acked, dx_phase x = PhDiscard acked /\ length acked = n) /\
       ((dx_idxs x = idxs_of B /\ dx_complete x = C) \/
        (dx_idxs x = repeat [] n /\ dx_client x = false))) ->
    view d B ns None None true th None
| V4 th C R ans :
    decided B C R ->
    (forall i nd, ns !! i = Some nd ->
       (pidx B i = [] /\ st_none nd d) \/
       (pidx B i <> [] /\ applied_at d B C R nd i)) ->
    (forall x, th = Some x -> dx_phase x = PhDone) ->
    (ans = None \/ ans = Some C) ->
    view d B ns None None false th ans.

Definition view_of (s : sys) (d : N) : Prop :=
  match sy_batches s !! d with
  | Some B =>
      view d B (sy_nodes s) (rs_prepare (sy_rsm s) !! d) (rs_commit (sy_rsm s) !! d)
        (bool_decide (d ∈ rs_discard (sy_rsm s))) (sy_dtx s !! d) (sy_answers s !! d)
  | None =>
      (forall i nd, sy_nodes s !! i = Some nd -> st_none nd d) /\
      rs_prepare (sy_rsm s) !! d = None /\ rs_commit (sy_rsm s) !! d = None /\
      d ∉ rs_discard (sy_rsm s) /\ sy_dtx s !! d = None /\ sy_answers s !! d = None
  end.

Definition nodes_ok (ns : list node) : Prop :=
  length ns = n /\
  forall i nd c p, ns !! i = Some nd -> cfgs !! i = Some c -> preseeds !! i = Some p ->
    node_ok c p cache nd.

Definition good (s : sys) : Prop :=
  nodes_ok (sy_nodes s) /\ length preseeds = n /\ forall d, view_of s d.

(** ** Framing *)

Definition nodes_same (d : N) (ns ns' : list node) : Prop :=
  length ns' = length ns /\
  forall i nd nd', ns !! i = Some nd -> ns' !! i = Some nd' -> same_for d nd nd'.

Lemma nodes_same_back d ns ns' i nd' :
  nodes_same d ns ns' -> ns' !! i = Some nd' ->
  exists nd, ns !! i = Some nd /\ same_for d nd nd'.
Proof.
  intros [Hl H] E. destruct (lookup_lt_is_Some_2 ns i) as [nd Hn].
  { rewrite <- Hl. eapply lookup_lt_Some; eauto. }
  eauto.
Qed.

Lemma applied_same d B C R nd nd' i :
  same_for d nd nd' -> applied_at d B C R nd i -> applied_at d B C R nd' i.
Proof. intros S (f & Hf & Ha). exists f. split; [done|]. eapply same_applied; eauto. Qed.

Lemma view_frame d B ns ns' p c di th an :
  nodes_same d ns ns' -> view d B ns p c di th an -> view d B ns' p c di th an.
Proof.
  intros HS H. destruct H as [th H1 H2|th H1 H2|th C R HD H1 H2|th C R HD H1 H2|th C R an HD H1 H2 H3].
  - apply V0; [|done]. intros i nd' E. destruct (nodes_same_back _ _ _ _ _ HS E) as (nd & En & S).
    eapply same_none; eauto.
  - apply V1.
    + intros i nd' E. destruct (nodes_same_back _ _ _ _ _ HS E) as (nd & En & S).
      destruct (H1 i nd En) as [?|[? [res ?]]].
      * left. eapply same_none; eauto.
      * right. split; [done|]. exists res. eapply same_locked; eauto.
    + intros x Hx. destruct (H2 x Hx) as [Hp (got & Hg & Hl & Hgot)]. split; [done|].
      exists got. split; [done|]. split; [done|]. intros i nd' res E G.
      destruct (nodes_same_back _ _ _ _ _ HS E) as (nd & En & S).
      eapply same_locked; eauto.
  - apply (V2 _ _ _ _ C R); [done| |].
    + intros i nd' E. destruct (nodes_same_back _ _ _ _ _ HS E) as (nd & En & S).
      destruct (H1 i nd En) as [[? ?]|[? [?|[? ?]]]].
      * left. split; [done|]. eapply same_none; eauto.
      * right. split; [done|]. left. eapply same_locked; eauto.
      * right. split; [done|]. right. split; [eapply applied_same; eauto|].
        eapply same_recalled; eauto.
    + intros x Hx. destruct (H2 x Hx) as (Hp & Hc & acked & Hg & Hl & Hgot).
      split; [done|]. split; [done|]. exists acked. split; [done|]. split; [done|].
      intros i nd' E P A. destruct (nodes_same_back _ _ _ _ _ HS E) as (nd & En & S).
      destruct (Hgot i nd En P A). split; [eapply applied_same; eauto|].
      eapply same_recalled; eauto.
  - apply (V3 _ _ _ _ C R); [done| |done].
    intros i nd' E. destruct (nodes_same_back _ _ _ _ _ HS E) as (nd & En & S).
    destruct (H1 i nd En) as [[? ?]|[? ?]].
    + left. split; [done|]. eapply same_none; eauto.
    + right. split; [done|]. eapply applied_same; eauto.
  - apply (V4 _ _ _ _ C R); [done| |done|done].
    intros i nd' E. destruct (nodes_same_back _ _ _ _ _ HS E) as (nd & En & S).
    destruct (H1 i nd En) as [[? ?]|[? ?]].
    + left. split; [done|]. eapply same_none; eauto.
    + right. split; [done|]. eapply applied_same; eauto.
Qed.

Record same_other (d : N) (s s' : sys) : Prop := {
  so_nodes : nodes_same d (sy_nodes s) (sy_nodes s');
  so_prep : rs_prepare (sy_rsm s') !! d = rs_prepare (sy_rsm s) !! d;
  so_com : rs_commit (sy_rsm s') !! d = rs_commit (sy_rsm s) !! d;
  so_dis : d ∈ rs_discard (sy_rsm s') <-> d ∈ rs_discard (sy_rsm s);
  so_th : sy_dtx s' !! d = sy_dtx s !! d;
  so_bat : sy_batches s' !! d = sy_batches s !! d;
  so_ans : sy_answers s' !! d = sy_answers s !! d }.

Lemma view_other d s s' : same_other d s s' -> view_of s d -> view_of s' d.
Proof.
  intros [H1 H2 H3 H4 H5 H6 H7] H. unfold view_of in *. rewrite H6, H5, H7, H2, H3.
  destruct (sy_batches s !! d) as [B|].
  - rewrite (bool_decide_ext _ _ H4). eapply view_frame; eauto.
  - destruct H as (Hn & Hr). split; [|rewrite H4; done].
    intros i nd' E. destruct (nodes_same_back _ _ _ _ _ H1 E) as (nd & En & S).
    eapply same_none; eauto.
Qed.

Lemma nodes_same_refl d ns : nodes_same d ns ns.
Proof. split; [done|]. intros i nd nd' E1 E2. assert (nd = nd') as <- by congruence. apply same_refl. Qed.

Lemma nodes_same_insert d ns i nd nd' :
  ns !! i = Some nd -> same_for d nd nd' -> nodes_same d ns (<[i := nd']> ns).
Proof.
  intros Hi S. split; [apply insert_length|]. intros j a b Ha Hb.
  destruct (decide (j = i)) as [->|Hne].
  - rewrite list_lookup_insert in Hb by (eapply lookup_lt_Some; eauto).
    assert (a = nd) as -> by congruence. inv Hb. done.
  - rewrite list_lookup_insert_ne in Hb by auto.
    assert (a = b) as -> by congruence. apply same_refl.
Qed.

Lemma nodes_ok_insert ns i nd nd' :
  nodes_ok ns ->
  (forall c p, cfgs !! i = Some c -> preseeds !! i = Some p -> node_ok c p cache nd') ->
  ns !! i = Some nd ->
  nodes_ok (<[i := nd']> ns).
Proof.
  intros [Hl H] Hn Hi. split; [now rewrite insert_length|]. intros j a c p Ha Hc Hp.
  destruct (decide (j = i)) as [->|Hne].
  - rewrite list_lookup_insert in Ha by (eapply lookup_lt_Some; eauto). inv Ha. eauto.
  - rewrite list_lookup_insert_ne in Ha by auto. eauto.
Qed.

(** Only what concerns [d] has to be checked for a step about [d]. *)
Lemma good_step s s' d :
  good s -> nodes_ok (sy_nodes s') ->
  (forall d', d' <> d -> same_other d' s s') -> view_of s' d -> good s'.
Proof.
  intros (H1 & H2 & H3) Hn Ho Hv. split; [done|]. split; [done|]. intros d'.
  destruct (decide (d' = d)) as [->|Hne]; [done|]. eapply view_other; eauto.
Qed.

(** ** The initial state *)

Lemma st_none_new p d : st_none (Node (shard_new p cache) [] []) d.
Proof. split; [done|]. split; [apply lookup_empty|apply not_elem_of_empty]. Qed.

Lemma good_new : length preseeds = length cfgs -> good (sys_new preseeds cache).
Proof.
  intros Hl. split; [|split; [done|]].
  - split; [unfold sys_new; cbn; now rewrite map_length|].
    intros i nd c p E _ Hp. cbn in E. rewrite list_lookup_fmap, Hp in E. inv E. done.
  - intros d. unfold view_of, sys_new. cbn. rewrite !lookup_empty.
    split; [|split; [done|]; split; [done|]; split; [apply not_elem_of_empty|done]].
    intros i nd E. rewrite list_lookup_fmap in E. destruct (preseeds !! i); inv E.
    apply st_none_new.
Qed.

(** ** Steps *)

Definition proper_sys (s : sys) : Prop :=
  forall d B c, sy_batches s !! d = Some B -> In c cfgs -> proper c B.

Definition good_res (s : sys) (r : sres) : Prop :=
  match r with
  | SOk s' => good s'
  | SShardDown => ~ proper_sys s
  | SCoordDown | SUndefined => False
  end.

Lemma plan_add B cl : plan B (add_txs rs (dtx_new n cl) B).
Proof.
  replace n with (length rs) by apply rs_length.
  destruct (add_txs_fields rs B cl) as (E1 & E2 & E3 & _). done.
Qed.

Lemma decided_true_merge B got C :
  length got = n ->
  merge_all (idxs_of B) got (repeat true (length B)) = Done (Some C) ->
  (forall i, pidx B i <> [] -> exists res, got !! i = Some (Some res)
                                     /\ length res = length (pidx B i)) /\
  decided B C (fun i => match got !! i with Some (Some r) => r | _ => [] end).
Proof.
  intros Hl Hm. destruct (merge_all_spec _ _ _ _ (eq_trans Hl (eq_sym (idxs_of_length B))) Hm)
    as (M1 & M2 & M3).
  assert (Hpart : forall i, pidx B i <> [] -> exists res, got !! i = Some (Some res)
                                     /\ length res = length (pidx B i)).
  { intros i Hi. apply (M2 i (pidx B i)); [|done]. apply idxs_of_lookup'. now apply pidx_lt in Hi. }
  split; [done|]. split; [now rewrite M1, repeat_length|].
  intros k. rewrite M3. split.
  - intros [Hr Hall]. split.
    + apply lookup_lt_Some in Hr. now rewrite repeat_length in Hr.
    + intros i j Hj. assert (Hne : pidx B i <> []) by (intros E; now rewrite E in Hj).
      destruct (Hpart i Hne) as (res & Hg & _). rewrite Hg.
      eapply (Hall i (pidx B i)); eauto. apply idxs_of_lookup'. now apply pidx_lt in Hne.
  - intros [Hk Hall]. split; [now apply lookup_repeat|].
    intros i ks res j Hi Hg Hj. apply idxs_of_lookup in Hi as [-> _].
    specialize (Hall i j Hj). now rewrite Hg in Hall.
Qed.

Lemma node_get s i : good s -> (i < n)%nat ->
  exists nd c p, sy_nodes s !! i = Some nd /\ cfgs !! i = Some c /\ node_ok c p cache nd
    /\ preseeds !! i = Some p.
Proof.
  intros ([Hl Hn] & Hp & _) Hi.
  destruct (lookup_lt_is_Some_2 (sy_nodes s) i) as [nd En]; [lia|].
  destruct (lookup_lt_is_Some_2 cfgs i) as [c Ec]; [done|].
  destruct (lookup_lt_is_Some_2 preseeds i) as [p Ep]; [lia|].
  eauto 10.
Qed.

Lemma flags_of B C R i :
  decided B C R -> exists flags, shard_flags C (pidx B i) = Some flags /\
    length flags = length (ptxs B i).
Proof.
  intros [Hl _]. destruct (shard_flags_total C (pidx B i)) as (f & Hf & Hlf & _).
  { intros k Hk. rewrite Hl. eapply pidx_bound; eauto. }
  exists f. split; [done|]. rewrite Hlf. apply pidx_ptxs.
Qed.

Lemma all_acked_spec idxs acked i ks :
  all_acked idxs acked = true -> length acked = length idxs ->
  idxs !! i = Some ks -> ks <> [] -> acked !! i = Some true.
Proof.
  unfold all_acked. rewrite forallb_forall. intros H Hl Hi Hne.
  destruct (lookup_lt_is_Some_2 acked i) as [b Hb].
  { rewrite Hl. eapply lookup_lt_Some; eauto. }
  assert (Hin : In (ks, b) (combine idxs acked)).
  { clear H Hne. revert acked i Hl Hi Hb.
    induction idxs as [|x idxs IH]; intros [|y acked] i Hl Hi Hb; try discriminate.
    destruct i; cbn in *; [left; congruence|]. right. eapply IH; eauto. }
  apply H in Hin. cbn in Hin. destruct ks; [done|]. now subst.
Qed.

Lemma proper_ptxs s d B c i :
  proper_sys s -> sy_batches s !! d = Some B -> cfgs !! i = Some c -> proper c (ptxs B i).
Proof.
  intros Hp Hb Hc. unfold ptxs. rewrite Hc. apply part_proper, (Hp d B c Hb).
  apply elem_of_list_In, elem_of_list_lookup. eauto.
Qed.

Ltac so := constructor; cbn; rewrite ?lookup_insert_ne, ?lookup_delete_ne by congruence;
  auto using nodes_same_refl.

Lemma step_good s l : good s -> good_res s (step cfgs s l).
Proof.
  intros HG. destruct l as [d txs|d|d i recv|d|d i recv|d|d i recv|d|d|d]; cbn [step].
  - (* LNew *)
    destruct (sy_batches s !! d) eqn:Eb; [exact HG|]. cbn.
    pose proof HG as (Hn & Hp & Hv). pose proof (Hv d) as Hd. unfold view_of in Hd.
    rewrite Eb in Hd. destruct Hd as (H1 & H2 & H3 & H4 & H5 & H6).
    apply (good_step s _ d HG); [exact Hn|intros d' Hne; so|].
    unfold view_of. cbn. rewrite lookup_insert, H2, H3, H6, lookup_insert.
    rewrite bool_decide_eq_false_2 by done. apply V0; [done|].
    intros x Ex. inv Ex. split; [apply plan_add|].
    fold n. replace n with (length rs) by apply rs_length.
    now destruct (add_txs_fields rs txs true) as (_ & _ & _ & ? & _).
  - (* LPrepare *)
    destruct (sy_dtx s !! d) as [x|] eqn:Ex; [|exact HG].
    destruct (dx_phase x) eqn:Eph; try exact HG.
    pose proof HG as (Hn & Hp & Hv). pose proof (Hv d) as Hd. unfold view_of in Hd.
    destruct (sy_batches s !! d) as [B|] eqn:Eb; [|destruct Hd as (_&_&_&_&?&_); congruence].
    rewrite Ex in Hd.
    inversion Hd as [th H1 H2 E1 E2 E3 E4 E5|th H1 H2 E1 E2 E3 E4 E5|th C R HD H1 H2 E1 E2 E3 E4 E5
      |th C R HD H1 H2 E1 E2 E3 E4 E5|th C R an HD H1 H2 H3 E1 E2 E3 E4 E5]; subst.
    2: destruct (H2 x eq_refl) as (_ & g & ? & _); congruence.
    2: destruct (H2 x eq_refl) as (_ & _ & g & ? & _); congruence.
    2: destruct (H2 x eq_refl) as ((g & ? & _) & _); congruence.
    2: specialize (H2 x eq_refl); congruence.
    destruct (H2 x eq_refl) as [Hpl _].
    unfold replicate, rsm_commit. rewrite <- E1. cbn.
    apply (good_step s _ d HG); [exact Hn|intros d' Hne; so|].
    unfold view_of. cbn. rewrite Eb, !lookup_insert, <- E2, <- E3, <- E5.
    destruct Hpl as (P1 & P2 & P3). rewrite P1. apply V1.
    + intros i nd Hi. left. eauto.
    + intros y Hy. injection Hy as <-. split; [done|]. exists (repeat None n). cbn. split; [done|].
      split; [apply repeat_length|]. intros i nd res _ Hg.
      apply lookup_repeat in Hg as [? _]. done.
  - (* LLock *)
    destruct (sy_dtx s !! d) as [x|] eqn:Ex; [|exact HG].
    destruct (dx_phase x) as [|got| | |] eqn:Eph; try exact HG.
    destruct (dx_idxs x !! i) as [[|k0 ks0]|] eqn:Ei; try exact HG.
    destruct (dx_txs x !! i) as [ts|] eqn:Et; [|exact HG].
    destruct (got !! i) as [[?|]|] eqn:Eg; try exact HG.
    pose proof HG as (Hn & Hp & Hv). pose proof (Hv d) as Hd. unfold view_of in Hd.
    destruct (sy_batches s !! d) as [B|] eqn:Eb; [|destruct Hd as (_&_&_&_&?&_); congruence].
    rewrite Ex in Hd.
    inversion Hd as [th H1 H2 E1 E2 E3 E4 E5|th H1 H2 E1 E2 E3 E4 E5|th C R HD H1 H2 E1 E2 E3 E4 E5
      |th C R HD H1 H2 E1 E2 E3 E4 E5|th C R an HD H1 H2 H3 E1 E2 E3 E4 E5]; subst.
    1: destruct (H2 x eq_refl) as (_ & ?); congruence.
    2: destruct (H2 x eq_refl) as (_ & _ & g & ? & _); congruence.
    2: destruct (H2 x eq_refl) as ((g & ? & _) & _); congruence.
    2: specialize (H2 x eq_refl); congruence.
    destruct (H2 x eq_refl) as [(P1 & P2 & P3) (got' & Eg' & Hlg & Hgot)].
    rewrite Eph in Eg'. injection Eg' as <-. rewrite P3 in Ei. rewrite P2 in Et.
    apply idxs_of_lookup in Ei as [Ei Hi]. apply txs_of_lookup in Et. subst ts.
    destruct (node_get s i HG Hi) as (nd & c & p & En & Ec & Hok & Epre).
    unfold shard_call. rewrite En, Ec.
    assert (Hne : pidx B i <> []) by congruence.
    (* the request's effect *)
    assert (Hcall : match process_request c (nd_shard nd) (RLock d (ptxs B i)) with
                    | Done (sh, rp) => exists res, rp = ALock res /\
                        st_locked (node_next nd sh (RLock d (ptxs B i)) rp) d (ptxs B i) res
                    | _ => ~ proper c (ptxs B i) end).
    { destruct (H1 i nd En) as [Hst|[_ [res Hst]]].
      - now apply (call_lock_new c p cache).
      - destruct (call_lock_again c p cache nd d (ptxs B i) (ptxs B i) res Hok Hst) as [Epr Hs].
        rewrite Epr. exists res. split; [done|]. eapply same_locked; eauto. }
    destruct (process_request c (nd_shard nd) (RLock d (ptxs B i))) as [[sh rp]| |] eqn:Epr.
    2,3: cbn; intros Hprop; apply Hcall; eapply proper_ptxs; eauto.
    destruct Hcall as (res & -> & Hst).
    destruct (node_step c p cache nd _ _ _ Hok Epr) as [Hok' _].
    set (nd' := node_next nd sh (RLock d (ptxs B i)) (ALock res)) in *.
    change (Node sh (nd_rqs nd ++ [RLock d (ptxs B i)]) (nd_rps nd ++ [ALock res])) with nd'.
    assert (Hn' : nodes_ok (<[i:=nd']> (sy_nodes s))).
    { apply nodes_ok_insert with nd; [done| |done]. intros c' p' Ec' Ep'.
      assert (c' = c) as -> by congruence. assert (p' = p) as -> by congruence. done. }
    assert (Hfr : forall d', d' <> d -> nodes_same d' (sy_nodes s) (<[i:=nd']> (sy_nodes s))).
    { intros d' Hd'. apply nodes_same_insert with nd; [done|].
      apply (frame c p cache _ _ _ _ d' Hok Epr Hd'). }
    assert (Hlk : forall j a, <[i:=nd']> (sy_nodes s) !! j = Some a ->
              (j = i /\ a = nd') \/ (j <> i /\ sy_nodes s !! j = Some a)).
    { intros j a Hj. destruct (decide (j = i)) as [->|?].
      - rewrite list_lookup_insert in Hj by (eapply lookup_lt_Some; eauto). inv Hj. auto.
      - rewrite list_lookup_insert_ne in Hj by auto. auto. }
    destruct recv.
    + apply (good_step s _ d HG); [exact Hn'| |].
      { intros d' Hd'. so. }
      unfold view_of. cbn. rewrite Eb, lookup_insert, <- E1, <- E2, <- E3, <- E5.
      apply V1.
      * intros j a Hj. destruct (Hlk j a Hj) as [[-> ->]|[_ Hj']]; [|eauto].
        right. eauto.
      * intros y Hy. injection Hy as <-. split; [done|]. exists (<[i:=Some res]> got). cbn.
        split; [done|]. split; [now rewrite insert_length|].
        intros j a r Hj Hg. destruct (Hlk j a Hj) as [[-> ->]|[Hji Hj']].
        -- rewrite list_lookup_insert in Hg by (eapply lookup_lt_Some; eauto). now inv Hg.
        -- rewrite list_lookup_insert_ne in Hg by auto. eauto.
    + apply (good_step s _ d HG); [exact Hn'| |].
      { intros d' Hd'. so. }
      unfold view_of. cbn. rewrite Eb, Ex, <- E1, <- E2, <- E3, <- E5.
      apply V1.
      * intros j a Hj. destruct (Hlk j a Hj) as [[-> ->]|[_ Hj']]; [|eauto].
        right. eauto.
      * intros y Hy. injection Hy as <-. split; [done|]. exists got.
        split; [done|]. split; [done|].
        intros j a r Hj Hg. destruct (Hlk j a Hj) as [[-> ->]|[Hji Hj']]; [congruence|eauto].
  - (* LDecide *)
    destruct (sy_dtx s !! d) as [x|] eqn:Ex; [|exact HG].
    destruct (dx_phase x) as [|got| | |] eqn:Eph; try exact HG.
    pose proof HG as (Hn & Hp & Hv). pose proof (Hv d) as Hd. unfold view_of in Hd.
    destruct (sy_batches s !! d) as [B|] eqn:Eb; [|destruct Hd as (_&_&_&_&?&_); congruence].
    rewrite Ex in Hd.
    inversion Hd as [th H1 H2 E1 E2 E3 E4 E5|th H1 H2 E1 E2 E3 E4 E5|th C R HD H1 H2 E1 E2 E3 E4 E5
      |th C R HD H1 H2 E1 E2 E3 E4 E5|th C R an HD H1 H2 H3 E1 E2 E3 E4 E5]; subst.
    1: destruct (H2 x eq_refl) as (_ & ?); congruence.
    2: destruct (H2 x eq_refl) as (_ & _ & g & ? & _); congruence.
    2: destruct (H2 x eq_refl) as ((g & ? & _) & _); congruence.
    2: specialize (H2 x eq_refl); congruence.
    destruct (H2 x eq_refl) as [(P1 & P2 & P3) (got' & Eg' & Hlg & Hgot)].
    rewrite Eph in Eg'. injection Eg' as <-. rewrite P1, P3.
    destruct (merge_all_total (idxs_of B) got (repeat true (length B))) as [o Eo].
    { now rewrite idxs_of_length. }
    { intros i ks res Hi Hne Hg. apply idxs_of_lookup in Hi as [-> Hlt].
      destruct (node_get s i HG Hlt) as (nd & c & p & En & _).
      destruct (Hgot i nd res En Hg) as (_ & _ & _ & Hlr). rewrite Hlr. symmetry. apply pidx_ptxs. }
    rewrite Eo. destruct o as [C|]; [|exact HG].
    destruct (decided_true_merge B got C Hlg Eo) as [Hpart HD].
    unfold replicate, rsm_commit. rewrite <- E1, <- E2. cbn.
    apply (good_step s _ d HG); [exact Hn|intros d' Hne; so|].
    unfold view_of. cbn. rewrite Eb, lookup_delete, !lookup_insert, <- E3, <- E5.
    apply (V2 _ _ _ _ C _ HD).
    + intros i nd Hi. destruct (decide (pidx B i = [])) as [He|He].
      * left. split; [done|]. destruct (H1 i nd Hi) as [?|[? _]]; done.
      * right. split; [done|]. left. destruct (Hpart i He) as (res & Hg & _).
        rewrite Hg. eauto.
    + intros y Hy. injection Hy as <-. cbn. split; [done|]. split; [done|].
      exists (repeat false n). split; [done|]. split; [apply repeat_length|].
      intros i nd _ _ Ha. apply lookup_repeat in Ha as [? _]. done.
  - (* LApply *)
    destruct (sy_dtx s !! d) as [x|] eqn:Ex; [|exact HG].
    destruct (dx_phase x) as [| |acked| |] eqn:Eph; try exact HG.
    destruct (dx_idxs x !! i) as [[|k0 ks0]|] eqn:Ei; try exact HG.
    destruct (acked !! i) as [[|]|] eqn:Eg; try exact HG.
    pose proof HG as (Hn & Hp & Hv). pose proof (Hv d) as Hd. unfold view_of in Hd.
    destruct (sy_batches s !! d) as [B|] eqn:Eb; [|destruct Hd as (_&_&_&_&?&_); congruence].
    rewrite Ex in Hd.
    inversion Hd as [th H1 H2 E1 E2 E3 E4 E5|th H1 H2 E1 E2 E3 E4 E5|th C R HD H1 H2 E1 E2 E3 E4 E5
      |th C R HD H1 H2 E1 E2 E3 E4 E5|th C R an HD H1 H2 H3 E1 E2 E3 E4 E5]; subst.
    1: destruct (H2 x eq_refl) as (_ & ?); congruence.
    1: destruct (H2 x eq_refl) as (_ & g & ? & _); congruence.
    2: destruct (H2 x eq_refl) as ((g & ? & _) & _); congruence.
    2: specialize (H2 x eq_refl); congruence.
    destruct (H2 x eq_refl) as (P1 & P2 & acked' & Eg' & Hla & Hack).
    rewrite Eph in Eg'. injection Eg' as <-. rewrite P1 in Ei.
    apply idxs_of_lookup in Ei as [Ei Hi]. rewrite Ei.
    assert (Hne : pidx B i <> []) by congruence. clear Ei k0 ks0.
    destruct (flags_of B C R i HD) as (flags & Ef & Hlf). rewrite P2, Ef.
    destruct (node_get s i HG Hi) as (nd & c & p & En & Ec & Hok & Epre).
    unfold shard_call. rewrite En, Ec.
    assert (Hcall : exists sh, process_request c (nd_shard nd) (RApply d flags) = Done (sh, AApply)
              /\ applied_at d B C R (node_next nd sh (RApply d flags) AApply) i
              /\ recalled (node_next nd sh (RApply d flags) AApply) d).
    { destruct (H1 i nd En) as [[? _]|[_ [Hst|[(f' & Ef' & Hst) Hr]]]]; [done| |].
      - destruct (call_apply_new c p cache nd d _ _ flags Hok Hst Hlf) as (sh & ? & ? & ?).
        exists sh. split; [done|]. split; [|done]. exists flags. done.
      - assert (f' = flags) as -> by congruence.
        destruct (call_apply_again c p cache nd d _ _ _ flags Hok Hst Hr) as [Epr Hs].
        exists (nd_shard nd). split; [done|]. split.
        + exists flags. split; [done|]. eapply same_applied; eauto.
        + eapply same_recalled; eauto. }
    destruct Hcall as (sh & Epr & Hap & Hrc). rewrite Epr.
    destruct (node_step c p cache nd _ _ _ Hok Epr) as [Hok' _].
    set (nd' := node_next nd sh (RApply d flags) AApply) in *.
    change (Node sh (nd_rqs nd ++ [RApply d flags]) (nd_rps nd ++ [AApply])) with nd'.
    assert (Hn' : nodes_ok (<[i:=nd']> (sy_nodes s))).
    { apply nodes_ok_insert with nd; [done| |done]. intros c' p' Ec' Ep'.
      assert (c' = c) as -> by congruence. assert (p' = p) as -> by congruence. done. }
    assert (Hfr : forall d', d' <> d -> nodes_same d' (sy_nodes s) (<[i:=nd']> (sy_nodes s))).
    { intros d' Hd'. apply nodes_same_insert with nd; [done|].
      apply (frame c p cache _ _ _ _ d' Hok Epr Hd'). }
    assert (Hlk : forall j a, <[i:=nd']> (sy_nodes s) !! j = Some a ->
              (j = i /\ a = nd') \/ (j <> i /\ sy_nodes s !! j = Some a)).
    { intros j a Hj. destruct (decide (j = i)) as [->|?].
      - rewrite list_lookup_insert in Hj by (eapply lookup_lt_Some; eauto). inv Hj. auto.
      - rewrite list_lookup_insert_ne in Hj by auto. auto. }
    assert (Hst' : forall j a, <[i:=nd']> (sy_nodes s) !! j = Some a ->
       (pidx B j = [] /\ st_none a d) \/
       (pidx B j <> [] /\
         (st_locked a d (ptxs B j) (R j) \/
          (applied_at d B C R a j /\ recalled a d)))).
    { intros j a Hj. destruct (Hlk j a Hj) as [[-> ->]|[_ Hj']]; [|eauto].
      right. split; [done|]. right. done. }
    destruct recv.
    + apply (good_step s _ d HG); [exact Hn'| |].
      { intros d' Hd'. so. }
      unfold view_of. cbn. rewrite Eb, lookup_insert, <- E1, <- E2, <- E3, <- E5.
      apply (V2 _ _ _ _ _ R HD Hst').
      intros y Hy. injection Hy as <-. cbn. split; [done|]. split; [done|].
      exists (<[i:=true]> acked). split; [done|]. split; [now rewrite insert_length|].
      intros j a Hj Hpj Ha. destruct (Hlk j a Hj) as [[-> ->]|[Hji Hj']]; [done|].
      rewrite list_lookup_insert_ne in Ha by auto. eauto.
    + apply (good_step s _ d HG); [exact Hn'| |].
      { intros d' Hd'. so. }
      unfold view_of. cbn. rewrite Eb, Ex, <- E1, <- E2, <- E3, <- E5.
      apply (V2 _ _ _ _ _ R HD Hst').
      intros y Hy. injection Hy as <-. split; [done|]. split; [done|].
      exists acked. split; [done|]. split; [done|].
      intros j a Hj Hpj Ha. destruct (Hlk j a Hj) as [[-> ->]|[Hji Hj']]; [done|eauto].
  - (* LFinish *)
    destruct (sy_dtx s !! d) as [x|] eqn:Ex; [|exact HG].
    destruct (dx_phase x) as [| |acked| |] eqn:Eph; try exact HG.
    destruct (all_acked (dx_idxs x) acked) eqn:Eall; [|exact HG].
    pose proof HG as (Hn & Hp & Hv). pose proof (Hv d) as Hd. unfold view_of in Hd.
    destruct (sy_batches s !! d) as [B|] eqn:Eb; [|destruct Hd as (_&_&_&_&?&_); congruence].
    rewrite Ex in Hd.
    inversion Hd as [th H1 H2 E1 E2 E3 E4 E5|th H1 H2 E1 E2 E3 E4 E5|th C R HD H1 H2 E1 E2 E3 E4 E5
      |th C R HD H1 H2 E1 E2 E3 E4 E5|th C R an HD H1 H2 H3 E1 E2 E3 E4 E5]; subst.
    1: destruct (H2 x eq_refl) as (_ & ?); congruence.
    1: destruct (H2 x eq_refl) as (_ & g & ? & _); congruence.
    2: destruct (H2 x eq_refl) as ((g & ? & _) & _); congruence.
    2: specialize (H2 x eq_refl); congruence.
    destruct (H2 x eq_refl) as (P1 & P2 & acked' & Eg' & Hla & Hack).
    rewrite Eph in Eg'. injection Eg' as <-. rewrite P1 in Eall.
    unfold replicate, rsm_commit. rewrite <- E2. cbn.
    apply (good_step s _ d HG); [exact Hn| |].
    { intros d' Hne. constructor; cbn; rewrite ?lookup_insert_ne, ?lookup_delete_ne by congruence;
        auto using nodes_same_refl.
      rewrite elem_of_union, elem_of_singleton. intuition congruence. }
    unfold view_of. cbn. rewrite Eb, lookup_delete, !lookup_insert, <- E1, <- E5.
    rewrite bool_decide_eq_true_2 by (apply elem_of_union; right; now apply elem_of_singleton).
    apply (V3 _ _ _ _ _ R HD).
    + intros i nd Hi. destruct (H1 i nd Hi) as [?|[Hne _]]; [now left|]. right.
      split; [done|]. apply (Hack i nd Hi Hne).
      apply (all_acked_spec _ _ i (pidx B i) Eall); [now rewrite idxs_of_length| |done].
      apply idxs_of_lookup'. now apply pidx_lt in Hne.
    + intros y Hy. injection Hy as <-. cbn. split.
      * exists (repeat false n). split; [done|]. apply repeat_length.
      * left. done.
  - (* LDiscard *)
    destruct (sy_dtx s !! d) as [x|] eqn:Ex; [|exact HG].
    destruct (dx_phase x) as [| | |acked|] eqn:Eph; try exact HG.
    destruct (dx_idxs x !! i) as [[|k0 ks0]|] eqn:Ei; try exact HG.
    destruct (acked !! i) as [[|]|] eqn:Eg; try exact HG.
    pose proof HG as (Hn & Hp & Hv). pose proof (Hv d) as Hd. unfold view_of in Hd.
    destruct (sy_batches s !! d) as [B|] eqn:Eb; [|destruct Hd as (_&_&_&_&?&_); congruence].
    rewrite Ex in Hd.
    inversion Hd as [th H1 H2 E1 E2 E3 E4 E5|th H1 H2 E1 E2 E3 E4 E5|th C R HD H1 H2 E1 E2 E3 E4 E5
      |th C R HD H1 H2 E1 E2 E3 E4 E5|th C R an HD H1 H2 H3 E1 E2 E3 E4 E5]; subst.
    1: destruct (H2 x eq_refl) as (_ & ?); congruence.
    1: destruct (H2 x eq_refl) as (_ & g & ? & _); congruence.
    1: destruct (H2 x eq_refl) as (_ & _ & g & ? & _); congruence.
    2: specialize (H2 x eq_refl); congruence.
    destruct (H2 x eq_refl) as ((acked' & Eg' & Hla) & Hor).
    rewrite Eph in Eg'. injection Eg' as <-.
    destruct Hor as [[P1 P2]|[P1 _]].
    2: { rewrite P1 in Ei. apply lookup_repeat in Ei as [? _]. done. }
    rewrite P1 in Ei. apply idxs_of_lookup in Ei as [Ei Hi].
    assert (Hne : pidx B i <> []) by congruence. clear Ei k0 ks0.
    destruct (node_get s i HG Hi) as (nd & c & p & En & Ec & Hok & Epre).
    unfold shard_call. rewrite En, Ec.
    destruct (call_discard c p cache nd d Hok) as (sh & Epr & Hevs & Hpr & _ & _ & _ & Happ).
    rewrite Epr.
    destruct (node_step c p cache nd _ _ _ Hok Epr) as [Hok' _].
    set (nd' := node_next nd sh (RDiscard d) ADiscard) in *.
    change (Node sh (nd_rqs nd ++ [RDiscard d]) (nd_rps nd ++ [ADiscard])) with nd'.
    assert (Hn' : nodes_ok (<[i:=nd']> (sy_nodes s))).
    { apply nodes_ok_insert with nd; [done| |done]. intros c' p' Ec' Ep'.
      assert (c' = c) as -> by congruence. assert (p' = p) as -> by congruence. done. }
    assert (Hfr : forall d', d' <> d -> nodes_same d' (sy_nodes s) (<[i:=nd']> (sy_nodes s))).
    { intros d' Hd'. apply nodes_same_insert with nd; [done|].
      apply (frame c p cache _ _ _ _ d' Hok Epr Hd'). }
    assert (Hlk : forall j a, <[i:=nd']> (sy_nodes s) !! j = Some a ->
              (j = i /\ a = nd') \/ (j <> i /\ sy_nodes s !! j = Some a)).
    { intros j a Hj. destruct (decide (j = i)) as [->|?].
      - rewrite list_lookup_insert in Hj by (eapply lookup_lt_Some; eauto). inv Hj. auto.
      - rewrite list_lookup_insert_ne in Hj by auto. auto. }
    assert (Hst' : forall j a, <[i:=nd']> (sy_nodes s) !! j = Some a ->
       (pidx B j = [] /\ st_none a d) \/
       (pidx B j <> [] /\ applied_at d B C R a j)).
    { intros j a Hj. destruct (Hlk j a Hj) as [[-> ->]|[_ Hj']]; [|eauto].
      right. split; [done|]. destruct (H1 i nd En) as [[? _]|[_ (f & Hf & Hst)]]; [done|].
      exists f. split; [done|]. destruct Hst as (S1 & S2 & S3 & S4).
      split; [now rewrite Hevs|]. split; [|done]. cbn. now rewrite Hpr. }
    destruct recv.
    + apply (good_step s _ d HG); [exact Hn'| |].
      { intros d' Hd'. so. }
      unfold view_of. cbn. rewrite Eb, lookup_insert, <- E1, <- E2, <- E3, <- E5.
      apply (V3 _ _ _ _ _ R HD Hst').
      intros y Hy. injection Hy as <-. cbn. split; [|now left].
      eexists. split; [done|]. now rewrite insert_length.
    + apply (good_step s _ d HG); [exact Hn'| |].
      { intros d' Hd'. so. }
      unfold view_of. cbn. rewrite Eb, Ex, <- E1, <- E2, <- E3, <- E5.
      apply (V3 _ _ _ _ _ R HD Hst').
      intros y Hy. injection Hy as <-. split; [|now left]. eauto.
  - (* LDone *)
    destruct (sy_dtx s !! d) as [x|] eqn:Ex; [|exact HG].
    destruct (dx_phase x) as [| | |acked|] eqn:Eph; try exact HG.
    destruct (all_acked (dx_idxs x) acked) eqn:Eall; [|exact HG].
    pose proof HG as (Hn & Hp & Hv). pose proof (Hv d) as Hd. unfold view_of in Hd.
    destruct (sy_batches s !! d) as [B|] eqn:Eb; [|destruct Hd as (_&_&_&_&?&_); congruence].
    rewrite Ex in Hd.
    inversion Hd as [th H1 H2 E1 E2 E3 E4 E5|th H1 H2 E1 E2 E3 E4 E5|th C R HD H1 H2 E1 E2 E3 E4 E5
      |th C R HD H1 H2 E1 E2 E3 E4 E5|th C R an HD H1 H2 H3 E1 E2 E3 E4 E5]; subst.
    1: destruct (H2 x eq_refl) as (_ & ?); congruence.
    1: destruct (H2 x eq_refl) as (_ & g & ? & _); congruence.
    1: destruct (H2 x eq_refl) as (_ & _ & g & ? & _); congruence.
    2: specialize (H2 x eq_refl); congruence.
    destruct (H2 x eq_refl) as (_ & Hor).
    assert (Hin : d ∈ rs_discard (sy_rsm s)) by (symmetry in E3; now apply bool_decide_eq_true in E3).
    unfold replicate, rsm_commit. rewrite bool_decide_eq_true_2 by done. cbn.
    apply (good_step s _ d HG); [exact Hn| |].
    { intros d' Hne. constructor; cbn; rewrite ?lookup_insert_ne by congruence;
        auto using nodes_same_refl.
      - rewrite elem_of_difference, elem_of_singleton. intuition congruence.
      - destruct (dx_client x); [|done]. now rewrite lookup_insert_ne by congruence. }
    unfold view_of. cbn. rewrite Eb, lookup_insert, <- E1, <- E2.
    rewrite bool_decide_eq_false_2 by (rewrite elem_of_difference, elem_of_singleton; tauto).
    apply (V4 _ _ _ _ C R _ HD).
    + done.
    + intros y Hy. now injection Hy as <-.
    + destruct (dx_client x) eqn:Ecl; [|left; done]. right.
      destruct Hor as [[_ ->]|[_ ?]]; [|congruence]. now rewrite lookup_insert.
  - (* LCrash *)
    pose proof HG as (Hn & Hp & Hv). pose proof (Hv d) as Hd.
    apply (good_step s _ d HG); [exact Hn|intros d' Hne; so|].
    unfold view_of in *. cbn. rewrite lookup_delete.
    destruct (sy_batches s !! d) as [B|] eqn:Eb; [|tauto].
    inversion Hd as [th H1 H2 E1 E2 E3 E4 E5|th H1 H2 E1 E2 E3 E4 E5|th C R HD H1 H2 E1 E2 E3 E4 E5
      |th C R HD H1 H2 E1 E2 E3 E4 E5|th C R an HD H1 H2 H3 E1 E2 E3 E4 E5]; subst.
    + apply V0; [done|]. intros ? [=].
    + apply V1; [done|]. intros ? [=].
    + apply (V2 _ _ _ _ C R); [done|done|]. intros ? [=].
    + apply (V3 _ _ _ _ C R); [done|done|]. intros ? [=].
    + apply (V4 _ _ _ _ C R); [done|done| |done]. intros ? [=].
  - (* LRecover *)
    destruct (sy_dtx s !! d) as [x|] eqn:Ex; [exact HG|].
    pose proof HG as (Hn & Hp & Hv). pose proof (Hv d) as Hd.
    destruct (recovered _ (sy_rsm s) d) as [x|] eqn:Er; [|exact HG].
    apply (good_step s _ d HG); [exact Hn|intros d' Hne; so|].
    unfold view_of in *. cbn. rewrite lookup_insert.
    unfold recovered in Er. fold rs in Er. rewrite rs_length in Er.
    destruct (sy_batches s !! d) as [B|] eqn:Eb.
    2: { destruct Hd as (_ & Hd1 & Hd2 & Hd3 & _). rewrite Hd1, Hd2 in Er.
         rewrite bool_decide_eq_false_2 in Er by done. discriminate. }
    rewrite Ex in Hd.
    inversion Hd as [th H1 H2 E1 E2 E3 E4 E5|th H1 H2 E1 E2 E3 E4 E5|th C R HD H1 H2 E1 E2 E3 E4 E5
      |th C R HD H1 H2 E1 E2 E3 E4 E5|th C R an HD H1 H2 H3 E1 E2 E3 E4 E5]; subst.
    + rewrite <- E1, <- E2, <- E3 in Er. discriminate.
    + rewrite <- E1 in Er. inv Er. apply V1; [done|].
      intros y Hy. injection Hy as <-. split; [exact (plan_add B false)|].
      exists (repeat None n). cbn. split; [done|]. split; [apply repeat_length|].
      intros i nd res _ Hg. apply lookup_repeat in Hg as [? _]. done.
    + rewrite <- E1, <- E2 in Er. inv Er. apply (V2 _ _ _ _ C R); [done|done|].
      intros y Hy. injection Hy as <-. cbn. split; [done|]. split; [done|].
      exists (repeat false n). split; [done|]. split; [apply repeat_length|].
      intros i nd _ _ Ha. apply lookup_repeat in Ha as [? _]. done.
    + rewrite <- E1, <- E2, <- E3 in Er. inv Er. apply (V3 _ _ _ _ C R); [done|done|].
      intros y Hy. injection Hy as <-. cbn. split.
      * exists (repeat false n). split; [done|]. apply repeat_length.
      * right. done.
    + rewrite <- E1, <- E2, <- E3 in Er. discriminate.
Qed.

End System.
