(** Proofs about the watchtower. *)
From Coq Require Import NArith List Bool Lia.
From stdpp Require Import base decidable list gmap.
From Verif Require Import Base CodecModel TxModel MsgModel AtomizerModel AtomizerShardModel
  WatchtowerModel WatchtowerSpec.
Import ListNotations.
Open Scope N_scope.

(** ** Maps *)
Lemma m_erase_all_lookup {V} ks : forall (m : gmap N V) x,
  m_erase_all ks m !! x = if decide (x ∈ ks) then None else m !! x.
Proof.
  induction ks as [|k ks IH]; intros m x; cbn [m_erase_all fold_left].
  - destruct (decide (x ∈ [])) as [H|H]; [inversion H|reflexivity].
  - fold (m_erase_all ks (delete k m)). rewrite IH.
    destruct (decide (x ∈ ks)) as [H|H]; destruct (decide (x ∈ k :: ks)) as [H2|H2]; try reflexivity.
    + exfalso. apply H2. apply elem_of_cons. tauto.
    + apply elem_of_cons in H2. destruct H2 as [->|H2]; [apply lookup_delete|contradiction].
    + apply lookup_delete_ne. intros ->. apply H2. apply elem_of_cons. tauto.
Qed.
Lemma m_insert_lookup {V} (m : gmap N V) k v x :
  m_insert m k v !! x = match m !! x with Some y => Some y | None => if decide (x = k) then Some v else None end.
Proof.
  unfold m_insert. destruct (m !! k) as [y|] eqn:E.
  - destruct (m !! x) eqn:Ex; [reflexivity|]. destruct (decide (x = k)); [congruence|reflexivity].
  - destruct (decide (x = k)) as [->|H].
    + rewrite lookup_insert, E. reflexivity.
    + rewrite lookup_insert_ne by congruence. destruct (m !! x); reflexivity.
Qed.
Lemma m_insert_all_lookup {V} ks (v : V) : forall (m : gmap N V) x,
  m_insert_all ks v m !! x = match m !! x with Some y => Some y | None => if decide (x ∈ ks) then Some v else None end.
Proof.
  induction ks as [|k ks IH]; intros m x; cbn [m_insert_all fold_left].
  - destruct (m !! x); [reflexivity|]. destruct (decide (x ∈ [])) as [H|H]; [inversion H|reflexivity].
  - fold (m_insert_all ks v (m_insert m k v)). rewrite IH, m_insert_lookup.
    destruct (m !! x); [reflexivity|]. destruct (decide (x = k)) as [->|H].
    + destruct (decide (k ∈ k :: ks)) as [_|H]; [reflexivity|]. exfalso. apply H, elem_of_list_here.
    + destruct (decide (x ∈ ks)) as [H1|H1]; destruct (decide (x ∈ k :: ks)) as [H2|H2]; try reflexivity.
      * exfalso. apply H2, elem_of_cons. tauto.
      * apply elem_of_cons in H2. tauto.
Qed.

(** ** The last k *)
Lemma last_k_push {A} k (l : list A) x :
  last_k k (l ++ [x]) =
  (match last_k k l with
   | old :: q => if negb (k =? 0) && (len (last_k k l) =? k) then q else last_k k l
   | [] => []
   end) ++ [x].
Proof.
  unfold last_k. destruct (N.eqb_spec k 0) as [->|Hk]; cbn [negb andb].
  - destruct l; reflexivity.
  - rewrite app_length. cbn [length].
    destruct (decide (N.to_nat k <= length l)%nat) as [Hle|Hgt].
    + rewrite drop_app_le by lia.
      assert (Hl : length (drop (length l - N.to_nat k) l) = N.to_nat k) by (rewrite drop_length; lia).
      destruct (drop (length l - N.to_nat k) l) as [|old q] eqn:E; [cbn in Hl; lia|].
      unfold len. rewrite Hl, N2Nat.id, N.eqb_refl. f_equal.
      replace (length l + 1 - N.to_nat k)%nat with (S (length l - N.to_nat k)) by lia.
      change (S (length l - N.to_nat k)) with (1 + (length l - N.to_nat k))%nat.
      rewrite Nat.add_comm, <- drop_drop, E. reflexivity.
    + replace (length l + 1 - N.to_nat k)%nat with 0%nat by lia.
      replace (length l - N.to_nat k)%nat with 0%nat by lia. rewrite !drop_0.
      destruct l as [|old q]; [reflexivity|].
      destruct (N.eqb_spec (len (old :: q)) k) as [H|H]; [|reflexivity]. unfold len in H. cbn [length] in *. lia.
Qed.

(** ** The block cache *)
Definition txs := list (N * compact_tx).
Definition sp_sound (l : txs) (m : gmap N (N * N)) : Prop :=
  forall id h t, m !! id = Some (h, t) -> exists c, (h, c) ∈ l /\ ctx_id c = t /\ id ∈ ctx_inputs c.
Definition un_in (l : txs) (id h t : N) : Prop :=
  exists pre c post, l = pre ++ (h, c) :: post /\ ctx_id c = t /\ id ∈ ctx_outputs c /\
    forall h' c', (h', c') ∈ post -> id ∉ ctx_inputs c'.
Definition un_sound (l : txs) (m : gmap N (N * N)) : Prop :=
  forall id h t, m !! id = Some (h, t) -> un_in l id h t.
Definition sp_full (l : txs) (m : gmap N (N * N)) : Prop :=
  forall (id h : N) c, (h, c) ∈ l -> id ∈ ctx_inputs c -> m !! id = Some ((h, ctx_id c) : N * N).
Definition un_full (l : txs) (m : gmap N (N * N)) : Prop :=
  forall id h t, un_in l id h t -> m !! id = Some (h, t).
Definition ins_of (l : txs) : list N := concat (map (fun p => ctx_inputs (snd p)) l).
Definition outs_of (l : txs) : list N := concat (map (fun p => ctx_outputs (snd p)) l).

Lemma in_ins l id h c : (h, c) ∈ l -> id ∈ ctx_inputs c -> id ∈ ins_of l.
Proof.
  intros H1 H2. apply elem_of_list_In, in_concat. exists (ctx_inputs c).
  split; [|apply elem_of_list_In; exact H2]. apply in_map_iff. exists (h, c).
  split; [reflexivity|apply elem_of_list_In; exact H1].
Qed.
Lemma in_outs l id h c : (h, c) ∈ l -> id ∈ ctx_outputs c -> id ∈ outs_of l.
Proof.
  intros H1 H2. apply elem_of_list_In, in_concat. exists (ctx_outputs c).
  split; [|apply elem_of_list_In; exact H2]. apply in_map_iff. exists (h, c).
  split; [reflexivity|apply elem_of_list_In; exact H1].
Qed.

Lemma evict_one h c l m : sp_sound ((h, c) :: l) (snd m) -> un_sound ((h, c) :: l) (fst m) ->
  sp_sound l (snd (bc_evict_tx m c)) /\ un_sound l (fst (bc_evict_tx m c)).
Proof.
  intros S U. unfold bc_evict_tx. cbn [fst snd]. split; intros id h' t H; rewrite m_erase_all_lookup in H;
    destruct (decide _) as [Hin|Hin]; try discriminate.
  - destruct (S _ _ _ H) as [c' [A [B C]]]. exists c'. split; [|tauto].
    apply elem_of_cons in A. destruct A as [A|A]; [|exact A]. injection A as -> ->. contradiction.
  - destruct (U _ _ _ H) as [pre [c' [post [A [B [C D]]]]]].
    destruct pre as [|p pre]; cbn [app] in A.
    + inversion A; subst. contradiction.
    + inversion A; subst. exists pre, c', post. tauto.
Qed.
Lemma evict_one_full h c l m : base.NoDup (ins_of ((h, c) :: l)) -> base.NoDup (outs_of ((h, c) :: l)) ->
  sp_full ((h, c) :: l) (snd m) -> un_full ((h, c) :: l) (fst m) ->
  sp_full l (snd (bc_evict_tx m c)) /\ un_full l (fst (bc_evict_tx m c)).
Proof.
  unfold ins_of, outs_of. cbn [map concat snd]. intros N1 N2 S U. apply NoDup_app in N1, N2.
  unfold bc_evict_tx. cbn [fst snd]. split.
  - intros id h' c' H1 H2. rewrite m_erase_all_lookup. destruct (decide _) as [Hin|Hin].
    + exfalso. apply (proj1 (proj2 N1) id Hin). eapply in_ins; [exact H1|exact H2].
    + apply S; [|exact H2]. apply elem_of_cons. right. exact H1.
  - intros id h' t [pre [c' [post [A [B [C D]]]]]]. rewrite m_erase_all_lookup. destruct (decide _) as [Hin|Hin].
    + exfalso. apply (proj1 (proj2 N2) id Hin). eapply in_outs; [|exact C]. rewrite A.
      apply elem_of_app. right. apply elem_of_list_here.
    + apply U. exists ((h, c) :: pre), c', post. rewrite A. tauto.
Qed.
Lemma evict_all h ts : forall l m, sp_sound (map (pair h) ts ++ l) (snd m) -> un_sound (map (pair h) ts ++ l) (fst m) ->
  sp_sound l (snd (fold_left bc_evict_tx ts m)) /\ un_sound l (fst (fold_left bc_evict_tx ts m)).
Proof.
  induction ts as [|t ts IH]; intros l m S U; cbn [fold_left map app] in *; [tauto|].
  destruct (evict_one _ _ _ _ S U) as [S1 U1]. apply IH; assumption.
Qed.
Lemma evict_all_full h ts : forall l m,
  base.NoDup (ins_of (map (pair h) ts ++ l)) -> base.NoDup (outs_of (map (pair h) ts ++ l)) ->
  sp_full (map (pair h) ts ++ l) (snd m) -> un_full (map (pair h) ts ++ l) (fst m) ->
  sp_full l (snd (fold_left bc_evict_tx ts m)) /\ un_full l (fst (fold_left bc_evict_tx ts m)).
Proof.
  induction ts as [|t ts IH]; intros l m N1 N2 S U; cbn [fold_left map app] in *; [tauto|].
  destruct (evict_one_full _ _ _ _ N1 N2 S U) as [S1 U1].
  unfold ins_of, outs_of in *. cbn [map concat snd] in *. apply NoDup_app in N1, N2.
  apply IH; tauto.
Qed.

Lemma un_in_more l id h t p : un_in l id h t -> id ∉ ctx_inputs (snd p) -> un_in (l ++ [p]) id h t.
Proof.
  intros [pre [c [post [-> [B [C D]]]]]] Hn. exists pre, c, (post ++ [p]).
  split; [rewrite <- app_assoc; reflexivity|]. split; [exact B|]. split; [exact C|].
  intros h' c' Hin. apply elem_of_app in Hin. destruct Hin as [Hin|Hin]; [exact (D _ _ Hin)|].
  apply elem_of_list_singleton in Hin. subst p. exact Hn.
Qed.
Lemma un_in_here l id h c : id ∈ ctx_outputs c -> un_in (l ++ [(h, c)]) id h (ctx_id c).
Proof. intro H. exists l, c, []. repeat split; [exact H|]. intros h' c' Hin. inversion Hin. Qed.

Lemma add_one h c l m : sp_sound l (snd m) -> un_sound l (fst m) ->
  sp_sound (l ++ [(h, c)]) (snd (bc_add_tx h m c)) /\ un_sound (l ++ [(h, c)]) (fst (bc_add_tx h m c)).
Proof.
  intros S U. unfold bc_add_tx. cbn [fst snd]. split; intros id h' t H; rewrite m_insert_all_lookup in H.
  - match type of H with (match ?x with Some _ => _ | None => _ end) = _ => destruct x as [[h1 t1]|] eqn:E end.
    + injection H as -> ->. destruct (S _ _ _ E) as [c' [A B]]. exists c'. split; [|exact B].
      apply elem_of_app. left. exact A.
    + destruct (decide (@elem_of N (list N) _ id (ctx_inputs c))) as [Hin|Hin]; [|discriminate]. injection H as <- <-.
      exists c. split; [apply elem_of_app; right; apply elem_of_list_here|]. tauto.
  - rewrite m_erase_all_lookup in H. destruct (decide (@elem_of N (list N) _ id (ctx_inputs c))) as [Hi|Hi].
    + destruct (decide (@elem_of N (list N) _ id (ctx_outputs c))) as [Ho|Ho]; [|discriminate]. injection H as <- <-.
      apply un_in_here. exact Ho.
    + match type of H with (match ?x with Some _ => _ | None => _ end) = _ => destruct x as [[h1 t1]|] eqn:E end.
      * injection H as -> ->. apply un_in_more; [apply U; exact E|exact Hi].
      * destruct (decide (@elem_of N (list N) _ id (ctx_outputs c))) as [Ho|Ho]; [|discriminate]. injection H as <- <-.
        apply un_in_here. exact Ho.
Qed.
Lemma ins_app l1 l2 : ins_of (l1 ++ l2) = ins_of l1 ++ ins_of l2.
Proof. unfold ins_of. rewrite map_app, concat_app. reflexivity. Qed.
Lemma outs_app l1 l2 : outs_of (l1 ++ l2) = outs_of l1 ++ outs_of l2.
Proof. unfold outs_of. rewrite map_app, concat_app. reflexivity. Qed.

Lemma add_one_full h c l m : base.NoDup (ins_of (l ++ [(h, c)])) -> base.NoDup (outs_of (l ++ [(h, c)])) ->
  sp_sound l (snd m) -> un_sound l (fst m) -> sp_full l (snd m) -> un_full l (fst m) ->
  sp_full (l ++ [(h, c)]) (snd (bc_add_tx h m c)) /\ un_full (l ++ [(h, c)]) (fst (bc_add_tx h m c)).
Proof.
  rewrite ins_app, outs_app. intros N1 N2 SS US S U. apply NoDup_app in N1, N2.
  destruct N1 as [_ [N1 _]]. destruct N2 as [_ [N2 _]].
  assert (Hlast : forall id, id ∈ ctx_inputs c -> id ∈ ins_of [(h, c)]).
  { intros id Hid. eapply in_ins; [apply elem_of_list_here|exact Hid]. }
  assert (Hlast2 : forall id, id ∈ ctx_outputs c -> id ∈ outs_of [(h, c)]).
  { intros id Hid. eapply in_outs; [apply elem_of_list_here|exact Hid]. }
  unfold bc_add_tx. cbn [fst snd]. split.
  - intros id h' c' H1 H2. rewrite m_insert_all_lookup. apply elem_of_app in H1. destruct H1 as [H1|H1].
    + rewrite (S id h' c' H1 H2). reflexivity.
    + apply elem_of_list_singleton in H1. injection H1 as -> ->.
      destruct (snd m !! id) as [[h1 t1]|] eqn:E.
      * exfalso. destruct (SS _ _ _ E) as [c1 [A [_ B]]].
        apply (N1 id); [eapply in_ins; [exact A|exact B]|apply Hlast; exact H2].
      * destruct (decide _); [reflexivity|contradiction].
  - intros id h' t [pre [c' [post [A [B [C D]]]]]]. rewrite m_insert_all_lookup, m_erase_all_lookup.
    destruct post as [|p post _] using rev_ind.
    + apply app_inj_tail in A. destruct A as [-> A]. injection A as -> ->.
      destruct (decide (@elem_of N (list N) _ id (ctx_inputs c'))) as [Hi|Hi].
      * destruct (decide (@elem_of N (list N) _ id (ctx_outputs c'))) as [Ho|Ho]; [rewrite B; reflexivity|contradiction].
      * destruct (fst m !! id) as [[h1 t1]|] eqn:E.
        -- exfalso. destruct (US _ _ _ E) as [p1 [c1 [q1 [A1 [_ [B1 _]]]]]].
           apply (N2 id); [|apply Hlast2; exact C]. eapply in_outs; [|exact B1]. rewrite A1.
           apply elem_of_app. right. apply elem_of_list_here.
        -- destruct (decide (@elem_of N (list N) _ id (ctx_outputs c'))) as [Ho|Ho]; [rewrite B; reflexivity|contradiction].
    + rewrite app_comm_cons, app_assoc in A. apply app_inj_tail in A. destruct A as [-> A]. subst p.
      destruct (decide (@elem_of N (list N) _ id (ctx_inputs c))) as [Hi|Hi].
      { exfalso. apply (D h c); [apply elem_of_app; right; apply elem_of_list_here|exact Hi]. }
      rewrite (U id h' t); [reflexivity|]. exists pre, c', post. split; [reflexivity|]. split; [exact B|].
      split; [exact C|]. intros h2 c2 Hin. apply (D h2 c2), elem_of_app. left. exact Hin.
Qed.
Lemma add_all h ts : forall l m, sp_sound l (snd m) -> un_sound l (fst m) ->
  sp_sound (l ++ map (pair h) ts) (snd (fold_left (bc_add_tx h) ts m)) /\
  un_sound (l ++ map (pair h) ts) (fst (fold_left (bc_add_tx h) ts m)).
Proof.
  induction ts as [|t ts IH]; intros l m S U; cbn [fold_left map]; [rewrite app_nil_r; tauto|].
  destruct (add_one h t l m S U) as [S1 U1]. specialize (IH _ _ S1 U1). rewrite <- app_assoc in IH. exact IH.
Qed.
Lemma add_all_full h ts : forall l m,
  base.NoDup (ins_of (l ++ map (pair h) ts)) -> base.NoDup (outs_of (l ++ map (pair h) ts)) ->
  sp_sound l (snd m) -> un_sound l (fst m) -> sp_full l (snd m) -> un_full l (fst m) ->
  sp_full (l ++ map (pair h) ts) (snd (fold_left (bc_add_tx h) ts m)) /\
  un_full (l ++ map (pair h) ts) (fst (fold_left (bc_add_tx h) ts m)).
Proof.
  induction ts as [|t ts IH]; intros l m N1 N2 SS US S U; cbn [fold_left map] in *; [rewrite app_nil_r; tauto|].
  destruct (add_one h t l m SS US) as [S1 U1].
  assert (E : l ++ (h, t) :: map (pair h) ts = (l ++ [(h, t)]) ++ map (pair h) ts) by (rewrite <- app_assoc; reflexivity).
  rewrite E in *.
  assert (N1' : base.NoDup (ins_of (l ++ [(h, t)]))) by (rewrite ins_app in N1; apply NoDup_app in N1; tauto).
  assert (N2' : base.NoDup (outs_of (l ++ [(h, t)]))) by (rewrite outs_app in N2; apply NoDup_app in N2; tauto).
  destruct (add_one_full h t l m N1' N2' SS US S U) as [S2 U2]. apply IH; assumption.
Qed.

Lemma btxs_app l1 l2 : btxs (l1 ++ l2) = btxs l1 ++ btxs l2.
Proof. unfold btxs. rewrite map_app, concat_app. reflexivity. Qed.
Lemma btxs_one b : btxs [b] = map (pair (blk_height b)) (blk_txs b).
Proof. unfold btxs. cbn. apply app_nil_r. Qed.
Lemma btxs_cons b l : btxs (b :: l) = map (pair (blk_height b)) (blk_txs b) ++ btxs l.
Proof. reflexivity. Qed.

Definition BInv (k : N) (bs : list block) (c : bcache) : Prop :=
  bc_k c = k /\ bc_blks c = last_k k bs /\ bc_best c = top_height bs /\
  sp_sound (btxs (last_k k bs)) (bc_spent c) /\ un_sound (btxs (last_k k bs)) (bc_unspent c).
Definition BFull (k : N) (bs : list block) (c : bcache) : Prop :=
  sp_full (btxs (last_k k bs)) (bc_spent c) /\ un_full (btxs (last_k k bs)) (bc_unspent c).

Lemma BInv_new k : BInv k [] (bc_new k).
Proof.
  assert (E : last_k k (@nil block) = []) by (unfold last_k; destruct (k =? 0); [reflexivity|apply drop_nil]).
  unfold BInv. rewrite E. repeat split; intros id h t H; cbn in H; rewrite lookup_empty in H; discriminate.
Qed.
Lemma BFull_new k : BFull k [] (bc_new k).
Proof.
  assert (E : last_k k (@nil block) = []) by (unfold last_k; destruct (k =? 0); [reflexivity|apply drop_nil]).
  unfold BFull. rewrite E. split.
  - intros id h c H. inversion H.
  - intros id h t [pre [c [post [A _]]]]. destruct pre; discriminate.
Qed.

(** The cache after the eviction. *)
Lemma push_split k bs c b : BInv k bs c -> exists q m,
  last_k k (bs ++ [b]) = q ++ [b] /\
  sp_sound (btxs q) (snd m) /\ un_sound (btxs q) (fst m) /\
  (once (last_k k bs) -> BFull k bs c -> sp_full (btxs q) (snd m) /\ un_full (btxs q) (fst m)) /\
  bc_push c b = (let '(u, s) := fold_left (bc_add_tx (blk_height b)) (blk_txs b) m in
                 BCache k (q ++ [b]) (N.max (bc_best c) (blk_height b)) u s).
Proof.
  intros [Hk [Hq [Hb [S U]]]]. unfold bc_push. rewrite (last_k_push k bs b), Hk, <- Hq in *.
  destruct (bc_blks c) as [|old q] eqn:E.
  - exists [], (bc_unspent c, bc_spent c). split; [reflexivity|]. split; [exact S|]. split; [exact U|].
    split; [|reflexivity]. intros _ [F1 F2]. rewrite <- Hq in *. tauto.
  - destruct (negb (k =? 0) && (len (old :: q) =? k)).
    + exists q, (fold_left bc_evict_tx (blk_txs old) (bc_unspent c, bc_spent c)). split; [reflexivity|].
      rewrite btxs_cons in S, U.
      destruct (evict_all _ _ _ (bc_unspent c, bc_spent c) S U) as [S1 U1].
      split; [exact S1|]. split; [exact U1|]. split; [|reflexivity].
      intros [N1 N2] [F1 F2]. rewrite <- Hq, btxs_cons in *.
      apply (evict_all_full (blk_height old)); assumption.
    + exists (old :: q), (bc_unspent c, bc_spent c). split; [reflexivity|]. split; [exact S|]. split; [exact U|].
      split; [|reflexivity]. intros _ [F1 F2]. rewrite <- Hq in *. tauto.
Qed.

Lemma BInv_push k bs c b : BInv k bs c -> BInv k (bs ++ [b]) (bc_push c b).
Proof.
  intro H. destruct (push_split k bs c b H) as [q [m [E1 [S [U [_ E2]]]]]].
  destruct (add_all (blk_height b) (blk_txs b) _ m S U) as [S1 U1].
  rewrite E2. destruct (fold_left _ _ m) as [u s]. cbn [fst snd] in *.
  unfold BInv. rewrite E1, btxs_app, btxs_one. cbn. repeat split; try assumption.
  destruct H as [_ [_ [H _]]]. rewrite H. unfold top_height. rewrite fold_left_app. reflexivity.
Qed.
Lemma BFull_push k bs c b : BInv k bs c -> BFull k bs c -> once (last_k k bs) -> once (last_k k (bs ++ [b])) ->
  BFull k (bs ++ [b]) (bc_push c b).
Proof.
  intros H F O1 [N1 N2]. destruct (push_split k bs c b H) as [q [m [E1 [S [U [FF E2]]]]]].
  destruct (FF O1 F) as [F1 F2]. rewrite E1, btxs_app, btxs_one in N1, N2.
  destruct (add_all_full (blk_height b) (blk_txs b) _ m N1 N2 S U F1 F2) as [S1 U1].
  rewrite E2. destruct (fold_left _ _ m) as [u s]. cbn [fst snd] in *.
  unfold BFull. rewrite E1, btxs_app, btxs_one. cbn. tauto.
Qed.

Lemma BInv_all k bs : BInv k bs (fold_left bc_push bs (bc_new k)).
Proof.
  induction bs as [|b bs IH] using rev_ind; [apply BInv_new|]. rewrite fold_left_app. apply BInv_push. exact IH.
Qed.
Lemma BFull_all k bs : once_in_window k bs -> BFull k bs (fold_left bc_push bs (bc_new k)).
Proof.
  induction bs as [|b bs IH] using rev_ind; intro H; [apply BFull_new|]. rewrite fold_left_app. cbn [fold_left].
  assert (H1 : once_in_window k bs).
  { intro n. specialize (H (min n (length bs))). rewrite take_app_le in H by lia.
    destruct (decide (n <= length bs)%nat) as [Hn|Hn].
    - rewrite Nat.min_l in H by lia. exact H.
    - rewrite Nat.min_r, firstn_all in H by lia. rewrite take_ge by lia. exact H. }
  apply BFull_push; [apply BInv_all|apply IH; exact H1| |].
  - specialize (H1 (length bs)). rewrite firstn_all in H1. exact H1.
  - specialize (H (length (bs ++ [b]))). rewrite firstn_all in H. exact H.
Qed.

Lemma sub_once_app {A} (l1 l2 l3 : list A) : base.NoDup (l1 ++ l2 ++ l3) -> base.NoDup l2.
Proof. intro H. apply NoDup_app in H. destruct H as [_ [_ H]]. apply NoDup_app in H. tauto. Qed.
Lemma once_windows k bs : once bs -> once_in_window k bs.
Proof.
  intros [N1 N2] n.
  assert (E : exists x y, bs = x ++ last_k k (take n bs) ++ y).
  { unfold last_k. destruct (k =? 0).
    - exists [], (drop n bs). cbn. rewrite take_drop. reflexivity.
    - exists (take (length (take n bs) - N.to_nat k) (take n bs)), (drop n bs).
      rewrite app_assoc, take_drop, take_drop. reflexivity. }
  destruct E as [x [y E]].
  assert (E2 : btxs bs = btxs x ++ btxs (last_k k (take n bs)) ++ btxs y) by (rewrite E at 1; rewrite !btxs_app; reflexivity).
  rewrite E2 in N1, N2. rewrite !map_app, !concat_app in N1, N2.
  split; eapply sub_once_app; eassumption.
Qed.

Theorem block_cache_sound k bs id h t :
  let c := fold_left bc_push bs (bc_new k) in
  (check_spent c id = Some (h, t) -> spent_in (last_k k bs) id h t) /\
  (check_unspent c id = Some (h, t) -> unspent_in (last_k k bs) id h t).
Proof.
  cbn zeta. destruct (BInv_all k bs) as [_ [_ [_ [S U]]]]. split; intro H; [apply S; exact H|apply U; exact H].
Qed.
Theorem block_cache_exact k bs id h t : once_in_window k bs ->
  let c := fold_left bc_push bs (bc_new k) in
  (check_spent c id = Some (h, t) <-> spent_in (last_k k bs) id h t) /\
  (check_unspent c id = Some (h, t) <-> unspent_in (last_k k bs) id h t).
Proof.
  cbn zeta. intro O. destruct (BInv_all k bs) as [_ [_ [_ [S U]]]]. destruct (BFull_all k bs O) as [F1 F2].
  split; split; intro H; [apply S; exact H| |apply U; exact H|apply F2; exact H].
  destruct H as [c [A [<- B]]]. apply F1; assumption.
Qed.
Theorem block_cache_best k bs : bc_best (fold_left bc_push bs (bc_new k)) =
  fold_left (fun m b => N.max m (blk_height b)) bs 0.
Proof. destruct (BInv_all k bs) as [_ [_ [H _]]]. exact H. Qed.

(** ** The error cache *)
Definition et_sound (l : list tx_err) (m : gmap N tx_err) : Prop :=
  forall id e, m !! id = Some e -> e ∈ l /\ te_id e = id.
Definition eu_sound (l : list tx_err) (m : gmap N tx_err) : Prop :=
  forall id e, m !! id = Some e -> e ∈ l /\ id ∈ err_ids e.
Definition et_full (l : list tx_err) (m : gmap N tx_err) : Prop :=
  forall e, e ∈ l -> m !! (te_id e : N) = Some e.
Definition eu_full (l : list tx_err) (m : gmap N tx_err) : Prop :=
  forall e id, e ∈ l -> id ∈ err_ids e -> m !! id = Some e.
Definition EInv (k : N) (es : list tx_err) (c : ecache) : Prop :=
  ec_k c = k /\ ec_errs c = last_k k es /\ et_sound (last_k k es) (ec_txs c) /\ eu_sound (last_k k es) (ec_uhs c).

Definition txs_differ (l : list tx_err) : Prop := base.NoDup (map te_id l).

Lemma EInv_new k : EInv k [] (ec_new k).
Proof.
  assert (E : last_k k (@nil tx_err) = []) by (unfold last_k; destruct (k =? 0); [reflexivity|apply drop_nil]).
  unfold EInv. rewrite E. split; [reflexivity|]. split; [reflexivity|].
  split; intros id e H; cbn in H; rewrite lookup_empty in H; discriminate.
Qed.

Lemma epush_split k es c e : EInv k es c -> exists q us ts,
  last_k k (es ++ [e]) = q ++ [e] /\ et_sound q ts /\ eu_sound q us /\
  (txs_differ (last_k k es) -> et_full (last_k k es) (ec_txs c) -> et_full q ts) /\
  (ids_differ (last_k k es) -> eu_full (last_k k es) (ec_uhs c) -> eu_full q us) /\
  ec_push c e = ECache k (q ++ [e]) (m_insert_all (err_ids e) e us) (m_insert ts (te_id e) e).
Proof.
  intros [Hk [Hq [T U]]]. unfold ec_push. rewrite (last_k_push k es e), Hk, <- Hq in *.
  destruct (ec_errs c) as [|old q] eqn:E.
  - exists [], (ec_uhs c), (ec_txs c). tauto.
  - destruct (negb (k =? 0) && (len (old :: q) =? k)).
    + exists q, (m_erase_all (err_ids old) (ec_uhs c)), (delete (te_id old) (ec_txs c)).
      split; [reflexivity|]. split; [|split; [|split; [|split; [|reflexivity]]]].
      * intros id x H. destruct (decide (te_id old = id)) as [<-|Hn]; [rewrite lookup_delete in H; discriminate|].
        rewrite lookup_delete_ne in H by exact Hn. destruct (T _ _ H) as [A B]. split; [|exact B].
        apply elem_of_cons in A. destruct A as [->|A]; [contradiction|exact A].
      * intros id x H. rewrite m_erase_all_lookup in H. destruct (decide _) as [Hin|Hin]; [discriminate|].
        destruct (U _ _ H) as [A B]. split; [|exact B].
        apply elem_of_cons in A. destruct A as [->|A]; [contradiction|exact A].
      * intros D F x Hx. unfold txs_differ in D. cbn [map] in D. inversion D as [|? ? D1 D2]; subst.
        rewrite lookup_delete_ne; [apply F; apply elem_of_cons; right; exact Hx|].
        intro Heq. apply D1. rewrite Heq. apply elem_of_list_In, in_map. apply elem_of_list_In. exact Hx.
      * intros D F x id Hx Hid. rewrite m_erase_all_lookup. destruct (decide _) as [Hin|Hin].
        -- exfalso. apply elem_of_list_lookup_1 in Hx. destruct Hx as [i Hi].
           pose proof (D 0%nat (S i) old x id eq_refl Hi Hin Hid) as K. discriminate.
        -- apply F; [apply elem_of_cons; right; exact Hx|exact Hid].
    + exists (old :: q), (ec_uhs c), (ec_txs c). tauto.
Qed.
Lemma EInv_push k es c e : EInv k es c -> EInv k (es ++ [e]) (ec_push c e).
Proof.
  intro H. destruct (epush_split k es c e H) as [q [us [ts [E1 [T [U [_ [_ E2]]]]]]]].
  rewrite E2. unfold EInv. rewrite E1. cbn. split; [reflexivity|]. split; [reflexivity|].
  split; intros id x H0; split.
  - rewrite m_insert_lookup in H0. match type of H0 with (match ?z with Some _ => _ | None => _ end) = _ => destruct z as [y|] eqn:E end.
    + injection H0 as ->. apply elem_of_app. left. apply (T _ _ E).
    + destruct (decide _) as [Hd|]; [|discriminate]. injection H0 as <-. apply elem_of_app. right. apply elem_of_list_here.
  - rewrite m_insert_lookup in H0. match type of H0 with (match ?z with Some _ => _ | None => _ end) = _ => destruct z as [y|] eqn:E end.
    + injection H0 as ->. apply (T _ _ E).
    + destruct (decide _) as [Hd|]; [|discriminate]. injection H0 as <-. symmetry. exact Hd.
  - rewrite m_insert_all_lookup in H0. match type of H0 with (match ?z with Some _ => _ | None => _ end) = _ => destruct z as [y|] eqn:E end.
    + injection H0 as ->. apply elem_of_app. left. apply (U _ _ E).
    + destruct (decide _); [|discriminate]. injection H0 as <-. apply elem_of_app. right. apply elem_of_list_here.
  - rewrite m_insert_all_lookup in H0. match type of H0 with (match ?z with Some _ => _ | None => _ end) = _ => destruct z as [y|] eqn:E end.
    + injection H0 as ->. apply (U _ _ E).
    + destruct (decide _) as [Hd|]; [|discriminate]. injection H0 as <-. exact Hd.
Qed.
Lemma EInv_all k es : EInv k es (fold_left ec_push es (ec_new k)).
Proof.
  induction es as [|e es IH] using rev_ind; [apply EInv_new|]. rewrite fold_left_app. apply EInv_push. exact IH.
Qed.

Lemma take_less {A} (P : list A -> Prop) k (es : list A) e :
  (forall n, P (last_k k (take n (es ++ [e])))) -> (forall n, P (last_k k (take n es))).
Proof.
  intros H n. specialize (H (min n (length es))). rewrite take_app_le in H by lia.
  destruct (decide (n <= length es)%nat) as [Hn|Hn].
  - rewrite Nat.min_l in H by lia. exact H.
  - rewrite Nat.min_r, firstn_all in H by lia. rewrite take_ge by lia. exact H.
Qed.
Lemma last_k_nil {A} k : last_k k (@nil A) = [].
Proof. unfold last_k. destruct (k =? 0); [reflexivity|apply drop_nil]. Qed.

Lemma et_full_all k es : (forall n, txs_differ (last_k k (take n es))) ->
  et_full (last_k k es) (ec_txs (fold_left ec_push es (ec_new k))).
Proof.
  induction es as [|e es IH] using rev_ind; intro H.
  - rewrite last_k_nil. intros e He. inversion He.
  - pose proof (take_less _ _ _ _ H) as H1. specialize (IH H1). rewrite fold_left_app. cbn [fold_left].
    destruct (epush_split k es _ e (EInv_all k es)) as [q [us [ts [E1 [T [U [FT [_ E2]]]]]]]].
    rewrite E2, E1. cbn. specialize (H1 (length es)). rewrite firstn_all in H1.
    specialize (FT H1 IH). specialize (H (length (es ++ [e]))). rewrite firstn_all, E1 in H.
    unfold txs_differ in H. rewrite map_app in H. apply NoDup_app in H. destruct H as [_ [H _]].
    intros x Hx. rewrite m_insert_lookup. apply elem_of_app in Hx. destruct Hx as [Hx|Hx].
    + pose proof (FT x Hx) as K. unfold hash in *. rewrite K. reflexivity.
    + apply elem_of_list_singleton in Hx. subst x. unfold hash in *. destruct (ts !! (te_id e : N)) as [y|] eqn:Ey.
      * exfalso. destruct (T _ _ Ey) as [A B]. apply (H (te_id e)); [|apply elem_of_list_here].
        rewrite <- B. apply elem_of_list_In, in_map, elem_of_list_In. exact A.
      * destruct (decide _); [reflexivity|contradiction].
Qed.
Lemma eu_full_all k es : (forall n, ids_differ (last_k k (take n es))) ->
  eu_full (last_k k es) (ec_uhs (fold_left ec_push es (ec_new k))).
Proof.
  induction es as [|e es IH] using rev_ind; intro H.
  - rewrite last_k_nil. intros e id He. inversion He.
  - pose proof (take_less _ _ _ _ H) as H1. specialize (IH H1). rewrite fold_left_app. cbn [fold_left].
    destruct (epush_split k es _ e (EInv_all k es)) as [q [us [ts [E1 [T [U [_ [FU E2]]]]]]]].
    rewrite E2, E1. cbn. specialize (H1 (length es)). rewrite firstn_all in H1.
    specialize (FU H1 IH). specialize (H (length (es ++ [e]))). rewrite firstn_all, E1 in H.
    intros x id Hx Hid. rewrite m_insert_all_lookup. apply elem_of_app in Hx. destruct Hx as [Hx|Hx].
    + rewrite (FU x id Hx Hid). reflexivity.
    + apply elem_of_list_singleton in Hx. subst x. destruct (us !! id) as [y|] eqn:Ey.
      * exfalso. destruct (U _ _ Ey) as [A B]. apply elem_of_list_lookup_1 in A. destruct A as [i Hi].
        assert (K : i = length q).
        { eapply H; [| |exact B|exact Hid].
          - rewrite lookup_app_l; [exact Hi|]. eapply lookup_lt_Some. exact Hi.
          - apply list_lookup_middle. reflexivity. }
        apply lookup_lt_Some in Hi. lia.
      * destruct (decide _); [reflexivity|contradiction].
Qed.

Theorem error_cache_sound k es id e :
  let c := fold_left ec_push es (ec_new k) in
  (check_err_tx c id = Some e -> e ∈ last_k k es /\ te_id e = id) /\
  (check_err_uhs c id = Some e -> e ∈ last_k k es /\ id ∈ err_ids e).
Proof. cbn zeta. destruct (EInv_all k es) as [_ [_ [T U]]]. split; [apply T|apply U]. Qed.
Theorem error_cache_by_tx k es : (forall n, base.NoDup (map te_id (last_k k (take n es)))) ->
  forall e, e ∈ last_k k es -> check_err_tx (fold_left ec_push es (ec_new k)) (te_id e) = Some e.
Proof. intros H. apply (et_full_all k es H). Qed.
Theorem error_cache_by_uhs k es : (forall n, ids_differ (last_k k (take n es))) ->
  forall e id, e ∈ last_k k es -> id ∈ err_ids e ->
  check_err_uhs (fold_left ec_push es (ec_new k)) id = Some e.
Proof. intros H. apply (eu_full_all k es H). Qed.

(** ** The watchtower *)
Lemma wt_run_blocks kb ke os : wt_bc (wt_run (wt_new kb ke) os) = fold_left bc_push (op_blocks os) (bc_new kb).
Proof.
  induction os as [|o os IH] using rev_ind; [reflexivity|].
  unfold wt_run, op_blocks in *. rewrite fold_left_app, map_app, concat_app, fold_left_app. cbn [fold_left map concat].
  destruct o as [b|es]; cbn [wt_do wt_add_block wt_add_errors wt_bc app fold_left]; rewrite <- IH; reflexivity.
Qed.
Lemma repeated_outdated kb bs e : repeated_tx (fold_left bc_push bs (bc_new kb)) e = true ->
  outdated (last_k kb bs) e.
Proof.
  unfold repeated_tx. intro H. apply existsb_exists in H. destruct H as [id [Hin H]].
  apply elem_of_list_In in Hin. apply orb_true_iff in H. destruct H as [H|H].
  - destruct (check_spent _ id) as [[h t]|] eqn:E; [|discriminate]. apply N.eqb_eq in H. subst t.
    exists id, h. split; [exact Hin|]. left. apply (proj1 (block_cache_sound kb bs id h (te_id e))). exact E.
  - destruct (check_unspent _ id) as [[h t]|] eqn:E; [|discriminate]. apply N.eqb_eq in H. subst t.
    exists id, h. split; [exact Hin|]. right. apply (proj2 (block_cache_sound kb bs id h (te_id e))). exact E.
Qed.
Lemma outdated_repeated kb bs e : once_in_window kb bs -> outdated (last_k kb bs) e ->
  repeated_tx (fold_left bc_push bs (bc_new kb)) e = true.
Proof.
  intros O [id [h [Hin H]]]. unfold repeated_tx. apply existsb_exists. exists id.
  split; [apply elem_of_list_In; exact Hin|]. apply orb_true_iff.
  destruct (block_cache_exact kb bs id h (te_id e) O) as [A B].
  destruct H as [H|H]; [left; apply A in H|right; apply B in H]; rewrite H; apply N.eqb_refl.
Qed.

Theorem wt_accepts kb ke os : exists acc, accepted kb os acc /\
  wt_ec (wt_run (wt_new kb ke) os) = fold_left ec_push acc (ec_new ke).
Proof.
  induction os as [|o os IH] using rev_ind.
  - exists []. split; [constructor|reflexivity].
  - destruct IH as [acc [A E]]. unfold wt_run. rewrite fold_left_app. cbn [fold_left].
    fold (wt_run (wt_new kb ke) os). destruct o as [b|es].
    + exists acc. split; [apply acc_block; exact A|exact E].
    + eexists. split; [apply acc_errors; [exact A|]|].
      2:{ cbn [wt_do wt_add_errors wt_ec]. rewrite E, fold_left_app. reflexivity. }
      cbn beta. intros e He. rewrite wt_run_blocks in He. apply repeated_outdated.
      destruct (repeated_tx _ e); [reflexivity|discriminate].
Qed.


Lemma uhs_statuses_ok kb ke bs acc tx id w :
  wt_bc w = fold_left bc_push bs (bc_new kb) -> wt_ec w = fold_left ec_push acc (ec_new ke) ->
  status_ok (last_k kb bs) (last_k ke acc) (top_height bs) tx id
    (uhs_statuses w tx (internal (check_err_tx (wt_ec w) tx))
       (match check_err_tx (wt_ec w) tx with Some _ => true | None => false end) (bc_best (wt_bc w)) id).
Proof.
  intros Eb Ee. rewrite Eb, Ee. set (best := bc_best _).
  assert (Hbest : best = top_height bs) by apply block_cache_best.
  destruct (check_err_tx (fold_left ec_push acc (ec_new ke)) tx) as [e|] eqn:Et.
  - apply (proj1 (error_cache_sound ke acc tx e)) in Et. destruct Et as [Et1 Et2].
    unfold uhs_statuses. rewrite Eb, Ee.
    match goal with |- context [_ ++ ?b] => set (l2 := b) end.
    assert (H2 : l2 = [] \/ exists h, (l2 = [Status SSpent h id] /\ spent_in (last_k kb bs) id h tx) \/
                                      (l2 = [Status SUnspent h id] /\ unspent_in (last_k kb bs) id h tx)).
    { subst l2. destruct (check_spent _ id) as [[h t]|] eqn:Es.
      - destruct (N.eqb_spec t tx) as [->|]; [|tauto]. right. exists h. left. split; [reflexivity|].
        apply (proj1 (block_cache_sound kb bs id h tx)). exact Es.
      - destruct (check_unspent _ id) as [[h t]|] eqn:Eu; [|tauto].
        destruct (N.eqb_spec t tx) as [->|]; [|tauto]. right. exists h. right. split; [reflexivity|].
        apply (proj2 (block_cache_sound kb bs id h tx)). exact Eu. }
    clearbody l2. unfold internal.
    match goal with |- context [if ?a then [Status SInternalError best id] else ?b] =>
      set (l1 := if a then [Status SInternalError best id] else b) end.
    assert (H1 : exists st, l1 = [Status st best id] /\
      ((st = SInternalError /\ (te_info e = ESync \/ te_info e = EStxoRange)) \/
       (st = SInvalidInput /\ exists x, x ∈ last_k ke acc /\ id ∈ err_ids x) \/ st = STxRejected)).
    { subst l1. destruct (te_info e) eqn:Ei.
      1: { eexists. split; [reflexivity|]. left. tauto. }
      2: { eexists. split; [reflexivity|]. left. tauto. }
      all: destruct (check_err_uhs _ id) as [x|] eqn:Ex;
        [apply (proj2 (error_cache_sound ke acc id x)) in Ex|]; eexists; (split; [reflexivity|]); right;
        [left; split; [reflexivity|exists x; exact Ex]|right; reflexivity]. }
    clearbody l1. destruct H1 as [st [-> H1]]. cbn [app].
    destruct H2 as [->|[h H2]].
    + constructor; try (intros x Hx; apply elem_of_list_singleton in Hx; subst x; cbn; intro; subst).
      * discriminate.
      * cbn. lia.
      * intros x Hx. apply elem_of_list_singleton in Hx. subst. reflexivity.
      * exfalso. destruct H1 as [[? _]|[[? _]|?]]; discriminate.
      * exfalso. destruct H1 as [[? _]|[[? _]|?]]; discriminate.
      * split; [exact Hbest|]. destruct H1 as [[_ ?]|[[? _]|?]]; try discriminate. exists e. tauto.
      * split; [exact Hbest|]. destruct H1 as [[? _]|[[_ ?]|?]]; try discriminate. split; [exists e; tauto|assumption].
      * split; [exact Hbest|]. exists e. tauto.
      * exfalso. destruct H1 as [[? _]|[[? _]|?]]; discriminate.
      * discriminate.
    + assert (H2' : exists st2, l2 = [Status st2 h id] /\
        ((st2 = SSpent /\ spent_in (last_k kb bs) id h tx) \/ (st2 = SUnspent /\ unspent_in (last_k kb bs) id h tx))).
      { destruct H2 as [[-> H2]|[-> H2]]; eexists; (split; [reflexivity|]); tauto. }
      clear H2. destruct H2' as [st2 [-> H2]]. cbn [app].
      constructor; try (intros x Hx; apply elem_of_cons in Hx; destruct Hx as [->|Hx];
        [|apply elem_of_list_singleton in Hx; subst x]; cbn; intro; subst).
      * discriminate.
      * cbn. lia.
      * intros x Hx. apply elem_of_cons in Hx. destruct Hx as [->|Hx]; [reflexivity|].
        apply elem_of_list_singleton in Hx. subst. reflexivity.
      * exfalso. destruct H1 as [[? _]|[[? _]|?]]; discriminate.
      * destruct H2 as [[_ ?]|[? _]]; [assumption|discriminate].
      * exfalso. destruct H1 as [[? _]|[[? _]|?]]; discriminate.
      * destruct H2 as [[? _]|[_ ?]]; [discriminate|assumption].
      * split; [exact Hbest|]. destruct H1 as [[_ ?]|[[? _]|?]]; try discriminate. exists e. tauto.
      * exfalso. destruct H2 as [[? _]|[? _]]; discriminate.
      * split; [exact Hbest|]. destruct H1 as [[? _]|[[_ ?]|?]]; try discriminate. split; [exists e; tauto|assumption].
      * exfalso. destruct H2 as [[? _]|[? _]]; discriminate.
      * split; [exact Hbest|]. exists e. tauto.
      * exfalso. destruct H2 as [[? _]|[? _]]; discriminate.
      * exfalso. destruct H1 as [[? _]|[[? _]|?]]; discriminate.
      * exfalso. destruct H2 as [[? _]|[? _]]; discriminate.
      * intros x y Hl. injection Hl as <- <-. cbn. split; [tauto|]. tauto.
  - unfold uhs_statuses. rewrite Eb. cbn [internal app].
    assert (One : forall st h, (st = SSpent -> spent_in (last_k kb bs) id h tx) ->
      (st = SUnspent -> unspent_in (last_k kb bs) id h tx) -> (st = SNoHistory -> h = best) ->
      (st = SSpent \/ st = SUnspent \/ st = SNoHistory) ->
      status_ok (last_k kb bs) (last_k ke acc) (top_height bs) tx id [Status st h id]).
    { intros st h A B C D.
      constructor; try (intros x Hx; apply elem_of_list_singleton in Hx; subst x; cbn; intro; subst).
      * discriminate.
      * cbn. lia.
      * intros x Hx. apply elem_of_list_singleton in Hx. subst. reflexivity.
      * auto.
      * auto.
      * exfalso. destruct D as [?|[?|?]]; discriminate.
      * exfalso. destruct D as [?|[?|?]]; discriminate.
      * exfalso. destruct D as [?|[?|?]]; discriminate.
      * split; [rewrite <- Hbest; auto|reflexivity].
      * discriminate. }
    destruct (check_spent _ id) as [[h t]|] eqn:Es.
    + destruct (N.eqb_spec t tx) as [->|]; apply One; try discriminate; try tauto.
      intros _. apply (proj1 (block_cache_sound kb bs id h tx)). exact Es.
    + destruct (check_unspent _ id) as [[h t]|] eqn:Eu; [destruct (N.eqb_spec t tx) as [->|]|];
        apply One; try discriminate; try tauto.
      intros _. apply (proj2 (block_cache_sound kb bs id h tx)). exact Eu.
Qed.

Lemma uhs_statuses_one w tx best id : length (uhs_statuses w tx false false best id) = 1%nat.
Proof.
  unfold uhs_statuses. cbn [app].
  destruct (check_spent _ id) as [[h t]|]; [destruct (t =? tx); reflexivity|].
  destruct (check_unspent _ id) as [[h t]|]; [destruct (t =? tx); reflexivity|reflexivity].
Qed.

Lemma uhs_statuses_confirmed kb bs w tx i e best id h : once_in_window kb bs ->
  wt_bc w = fold_left bc_push bs (bc_new kb) ->
  (spent_in (last_k kb bs) id h tx -> Status SSpent h id ∈ uhs_statuses w tx i e best id) /\
  (unspent_in (last_k kb bs) id h tx -> (forall h' t', ~ spent_in (last_k kb bs) id h' t') ->
     Status SUnspent h id ∈ uhs_statuses w tx i e best id).
Proof.
  intros O Eb. unfold uhs_statuses. rewrite Eb.
  match goal with |- context [?a ++ _] => set (l1 := a) end.
  assert (Hin : forall (x : status_state) l, x ∈ l -> x ∈ (match l with [] => [Status SNoHistory best id] | s :: l0 => s :: l0 end)).
  { intros x l H. destruct l; [inversion H|exact H]. }
  split.
  - intro H. apply (proj2 (proj1 (block_cache_exact kb bs id h tx O))) in H. rewrite H.
    rewrite N.eqb_refl. apply Hin, elem_of_app. right. apply elem_of_list_here.
  - intros H Hn.
    destruct (check_spent (fold_left bc_push bs (bc_new kb)) id) as [[h' t']|] eqn:Es.
    { exfalso. apply (Hn h' t'). apply (proj1 (block_cache_sound kb bs id h' t')). exact Es. }
    apply (proj2 (proj2 (block_cache_exact kb bs id h tx O))) in H. rewrite H.
    rewrite N.eqb_refl. apply Hin, elem_of_app. right. apply elem_of_list_here.
Qed.

(** The answers to status requests, after any history. *)
Theorem wt_status_ok kb ke os : exists acc states,
  accepted kb os acc /\
  (forall req, wt_status (wt_run (wt_new kb ke) os) req =
     map (fun p => (fst p, concat (map (states (fst p)) (snd p)))) req) /\
  (forall tx id, status_ok (last_k kb (op_blocks os)) (last_k ke acc) (top_height (op_blocks os)) tx id (states tx id)) /\
  (forall tx id, (forall e, e ∈ last_k ke acc -> te_id e <> tx) -> length (states tx id) = 1%nat) /\
  ((forall n, base.NoDup (map te_id (last_k ke (take n acc)))) -> forall e id, e ∈ last_k ke acc ->
     exists x, x ∈ states (te_id e) id /\ su_height x = top_height (op_blocks os) /\
       (if internal (Some e) then su_status x = SInternalError
        else su_status x = SInvalidInput \/ su_status x = STxRejected)) /\
  (once_in_window kb (op_blocks os) -> forall tx id h,
     (spent_in (last_k kb (op_blocks os)) id h tx -> Status SSpent h id ∈ states tx id) /\
     (unspent_in (last_k kb (op_blocks os)) id h tx ->
      (forall h' t', ~ spent_in (last_k kb (op_blocks os)) id h' t') -> Status SUnspent h id ∈ states tx id)).
Proof.
  destruct (wt_accepts kb ke os) as [acc [A E]]. set (w := wt_run (wt_new kb ke) os) in *.
  assert (Eb : wt_bc w = fold_left bc_push (op_blocks os) (bc_new kb)) by apply wt_run_blocks.
  exists acc, (fun tx id => uhs_statuses w tx (internal (check_err_tx (wt_ec w) tx))
       (match check_err_tx (wt_ec w) tx with Some _ => true | None => false end) (bc_best (wt_bc w)) id).
  split; [exact A|]. split; [reflexivity|]. split; [|split; [|split]].
  - intros tx id. apply uhs_statuses_ok; assumption.
  - intros tx id H. destruct (check_err_tx (wt_ec w) tx) as [e|] eqn:Et.
    + exfalso. rewrite E in Et. apply (proj1 (error_cache_sound ke acc tx e)) in Et. apply (H e); tauto.
    + apply uhs_statuses_one.
  - intros D e id He. pose proof (error_cache_by_tx ke acc D e He) as F. rewrite <- E in F.
    rewrite F, Eb, block_cache_best. unfold uhs_statuses. destruct (internal (Some e)) eqn:Ei.
    + eexists. split; [apply elem_of_list_here|]. split; reflexivity.
    + destruct (check_err_uhs (wt_ec w) id); (eexists; split; [apply elem_of_list_here|]); cbn; tauto.
  - intros O tx id h. apply uhs_statuses_confirmed; assumption.
Qed.

(** ** Following the chain *)
Section follow.
Context (chain : N -> block) (top : N) (ask : archive).
Hypothesis Hon : honest chain top ask.

Lemma add64_s a : a + 1 < two64 -> add64 a 1 = a + 1.
Proof. intro H. unfold add64, wrap64. apply N.mod_small. exact H. Qed.

Theorem wt_follow_old fuel : forall n last w b, last + 1 < two64 -> top + 1 < two64 ->
  blk_height b <= last -> wt_follow fuel ask n last w b = None.
Proof.
  induction fuel as [|f IH]; intros n last w b H1 H2 H3; cbn [wt_follow]; rewrite add64_s by exact H1;
    destruct (N.eqb_spec (blk_height b) (last + 1)); try lia; [reflexivity|].
  destruct (ask n (last + 1)) as [m|] eqn:E; [|apply IH; assumption].
  apply Hon in E. destruct E as [_ [E1 E2]]. apply IH; lia.
Qed.

Lemma blocks_after_cons from d : blocks_after chain from (S d) = chain (from + 1) :: blocks_after chain (from + 1) d.
Proof.
  unfold blocks_after. cbn [seq map]. f_equal. rewrite <- seq_shift, map_map. apply map_ext.
  intro i. f_equal. lia.
Qed.

Theorem wt_follow_safe fuel : forall n last w b n' last' w', blk_height b < two64 -> last < blk_height b ->
  wt_follow fuel ask n last w b = Some (n', last', w') ->
  last' = blk_height b /\
  w' = fold_left wt_add_block (blocks_after chain last (N.to_nat (blk_height b - last - 1)) ++ [b]) w.
Proof.
  induction fuel as [|f IH]; intros n last w b n' last' w' H1 H2 H; cbn [wt_follow] in H;
    rewrite add64_s in H by lia; destruct (N.eqb_spec (blk_height b) (last + 1)) as [He|He].
  1,3: injection H as <- <- <-; replace (blk_height b - last - 1) with 0 by lia; split; reflexivity.
  - discriminate.
  - destruct (ask n (last + 1)) as [m|] eqn:E.
    + apply Hon in E. destruct E as [E0 [E1 _]]. subst m.
      apply IH in H; [|assumption|lia]. rewrite E1 in H. destruct H as [A B]. split; [exact A|].
      replace (N.to_nat (blk_height b - last - 1)) with (S (N.to_nat (blk_height b - (last + 1) - 1))) by lia.
      rewrite blocks_after_cons. cbn [app fold_left]. exact B.
    + apply IH in H; assumption.
Qed.

Hypothesis Av : available chain top ask.

Theorem wt_follow_live : forall d n last w b, blk_height b < two64 -> blk_height b <= top + 1 ->
  last < blk_height b -> N.to_nat (blk_height b - last - 1) = d ->
  exists fuel r, wt_follow fuel ask n last w b = Some r.
Proof.
  induction d as [|d IH]; intros n last w b H1 H2 H3 Hd.
  - exists 0%nat. cbn. rewrite add64_s by lia. destruct (N.eqb_spec (blk_height b) (last + 1)); [|lia]. eexists. reflexivity.
  - destruct (Av (last + 1)) as [n0 Hn0]; [lia|].
    (* wait until the archiver has it *)
    assert (W : forall k n, (n0 - n <= k)%nat -> exists fuel r, wt_follow fuel ask n last w b = Some r).
    { induction k as [|k IHk]; intros m Hm.
      - destruct (IH (S m) (last + 1) (wt_add_block w (chain (last + 1))) b) as [fuel [r Hr]]; try lia.
        exists (S fuel), r. cbn [wt_follow]. rewrite add64_s by lia.
        destruct (N.eqb_spec (blk_height b) (last + 1)); [lia|].
        pose proof (Hn0 m ltac:(lia)) as Em. rewrite Em. apply Hon in Em. destruct Em as [_ [Em _]]. rewrite Em. exact Hr.
      - destruct (ask m (last + 1)) as [x|] eqn:Em.
        + pose proof (Hon _ _ _ Em) as [Ex [Eh _]]. subst x.
          destruct (IH (S m) (last + 1) (wt_add_block w (chain (last + 1))) b) as [fuel [r Hr]]; try lia.
          exists (S fuel), r. cbn [wt_follow]. rewrite add64_s by lia.
          destruct (N.eqb_spec (blk_height b) (last + 1)); [lia|]. rewrite Em, Eh. exact Hr.
        + destruct (IHk (S m)) as [fuel [r Hr]]; [lia|]. exists (S fuel), r. cbn [wt_follow].
          rewrite add64_s by lia. destruct (N.eqb_spec (blk_height b) (last + 1)); [lia|]. rewrite Em. exact Hr. }
    apply (W (n0 - n)%nat n). lia.
Qed.


Lemma digest_best s m : blk_height m < two64 -> blk_height m = as_best s + 1 ->
  as_best (fst (ashard_digest_block true s m)) = blk_height m /\ snd (ashard_digest_block true s m) = true.
Proof.
  intros H1 H2. unfold ashard_digest_block. rewrite add64_s by lia.
  destruct (N.eqb_spec (blk_height m) (as_best s + 1)); [|lia]. cbn. split; [lia|reflexivity].
Qed.

Lemma sh_fill_safe fuel : forall n s i h n' s', h < two64 -> i = as_best s + 1 -> i <= h ->
  sh_fill fuel ask n s i h = Some (n', s') ->
  s' = digest_all s (blocks_after chain (as_best s) (N.to_nat (h - i))) /\ as_best s' + 1 = h.
Proof.
  induction fuel as [|f IH]; intros n s i h n' s' H1 H2 H3 H; cbn [sh_fill] in H;
    destruct (N.ltb_spec i h) as [Hlt|Hge]; cbn [negb] in H.
  - discriminate.
  - injection H as <- <-. replace (h - i) with 0 by lia. split; [reflexivity|lia].
  - destruct (ask n i) as [m|] eqn:E.
    + apply Hon in E. destruct E as [-> [E1 _]]. subst i.
      destruct (digest_best s (chain (as_best s + 1))) as [D1 _]; [lia|lia|].
      rewrite add64_s in H by lia. apply IH in H; [|exact H1|lia|lia].
      rewrite D1, E1 in H. destruct H as [A B]. split; [|exact B].
      replace (N.to_nat (h - (as_best s + 1))) with (S (N.to_nat (h - (as_best s + 1 + 1)))) by lia.
      rewrite blocks_after_cons. exact A.
    + apply IH in H; assumption.
  - injection H as <- <-. replace (h - i) with 0 by lia. split; [reflexivity|lia].
Qed.

Theorem sh_follow_old fuel inner n s b : as_best s + 1 < two64 -> blk_height b <= as_best s ->
  sh_follow (S fuel) inner ask n s b = Some (n, s).
Proof.
  intros H1 H2. cbn [sh_follow]. unfold ashard_digest_block. rewrite add64_s by exact H1.
  destruct (N.eqb_spec (blk_height b) (as_best s + 1)); [lia|]. cbn [negb].
  destruct (N.leb_spec (blk_height b) (as_best s)); [reflexivity|lia].
Qed.

Lemma digest_not s b : as_best s + 1 < two64 -> blk_height b <> as_best s + 1 -> ashard_digest_block true s b = (s, false).
Proof.
  intros H1 H2. unfold ashard_digest_block. rewrite add64_s by exact H1.
  destruct (N.eqb_spec (blk_height b) (as_best s + 1)); [contradiction|reflexivity].
Qed.

Theorem sh_follow_safe fuel inner n s b n' s' : blk_height b < two64 -> as_best s < blk_height b ->
  sh_follow fuel inner ask n s b = Some (n', s') ->
  s' = digest_all s (blocks_after chain (as_best s) (N.to_nat (blk_height b - as_best s - 1)) ++ [b]) /\
  as_best s' = blk_height b.
Proof.
  intros H1 H2 H.
  assert (Last : forall f m t m' t', as_best t + 1 = blk_height b -> sh_follow f inner ask m t b = Some (m', t') ->
    t' = fst (ashard_digest_block true t b) /\ as_best t' = blk_height b).
  { intros f m t m' t' Ht Hf. destruct f as [|f]; [discriminate|]. cbn [sh_follow] in Hf.
    destruct (digest_best t b H1 (eq_sym Ht)) as [D1 D2].
    destruct (ashard_digest_block true t b) as [t1 ok]. cbn in D1, D2. subst ok. injection Hf as <- <-. tauto. }
  destruct (N.eq_dec (blk_height b) (as_best s + 1)) as [He|Hne].
  - destruct (Last _ _ _ _ _ (eq_sym He) H) as [A B]. split; [|exact B].
    replace (blk_height b - as_best s - 1) with 0 by lia. exact A.
  - destruct fuel as [|f]; [discriminate|]. cbn [sh_follow] in H.
    rewrite digest_not in H by lia. destruct (N.leb_spec (blk_height b) (as_best s)); [lia|].
    rewrite add64_s in H by lia.
    destruct (sh_fill inner ask n s (as_best s + 1) (blk_height b)) as [[n2 s2]|] eqn:E; [|discriminate].
    apply sh_fill_safe in E; [|assumption|reflexivity|lia]. destruct E as [E1 E2].
    destruct (Last _ _ _ _ _ E2 H) as [A B]. split; [|exact B].
    unfold digest_all. rewrite fold_left_app. cbn [fold_left]. rewrite A. f_equal. rewrite E1.
    unfold digest_all. do 3 f_equal. lia.
Qed.

Lemma sh_fill_live : forall d n s i h, h < two64 -> h <= top + 1 -> i = as_best s + 1 -> i <= h ->
  N.to_nat (h - i) = d -> exists fuel r, sh_fill fuel ask n s i h = Some r.
Proof.
  induction d as [|d IH]; intros n s i h H1 H2 H3 H4 Hd.
  - exists 0%nat, (n, s). cbn. destruct (N.ltb_spec i h); [lia|reflexivity].
  - destruct (Av i) as [n0 Hn0]; [lia|].
    assert (Got : forall m, ask m i = Some (chain i) -> exists fuel r, sh_fill fuel ask m s i h = Some r).
    { intros m Em. pose proof (Hon _ _ _ Em) as [_ [Eh _]].
      destruct (digest_best s (chain i)) as [D1 _]; [lia|lia|].
      destruct (IH (S m) (fst (ashard_digest_block true s (chain i))) (i + 1) h) as [fuel [r Hr]]; try lia.
      exists (S fuel), r. cbn [sh_fill]. destruct (N.ltb_spec i h); [|lia]. cbn [negb].
      rewrite Em, add64_s by lia. exact Hr. }
    assert (W : forall k m, (n0 - m <= k)%nat -> exists fuel r, sh_fill fuel ask m s i h = Some r).
    { induction k as [|k IHk]; intros m Hm; [apply Got, Hn0; lia|].
      destruct (ask m i) as [x|] eqn:Em.
      - pose proof (Hon _ _ _ Em) as [Ex _]. subst x. apply Got. exact Em.
      - destruct (IHk (S m)) as [fuel [r Hr]]; [lia|]. exists (S fuel), r. cbn [sh_fill].
        destruct (N.ltb_spec i h); [|lia]. cbn [negb]. rewrite Em. exact Hr. }
    apply (W (n0 - n)%nat n). lia.
Qed.

Theorem sh_follow_live n s b : blk_height b < two64 -> blk_height b <= top + 1 -> as_best s < blk_height b ->
  exists fuel inner r, sh_follow fuel inner ask n s b = Some r.
Proof.
  intros H1 H2 H3.
  assert (Last : forall inner m t, as_best t + 1 = blk_height b -> exists r, sh_follow 1 inner ask m t b = Some r).
  { intros inner m t Ht. cbn [sh_follow]. destruct (digest_best t b H1 (eq_sym Ht)) as [D1 D2].
    destruct (ashard_digest_block true t b) as [t1 ok]. cbn in D2. subst ok. eexists. reflexivity. }
  destruct (N.eq_dec (blk_height b) (as_best s + 1)) as [He|Hne].
  - destruct (Last 0%nat n s (eq_sym He)) as [r Hr]. exists 1%nat, 0%nat, r. exact Hr.
  - destruct (sh_fill_live (N.to_nat (blk_height b - (as_best s + 1))) n s (as_best s + 1) (blk_height b)) as [inner [[n2 s2] Hf]]; try lia.
    pose proof Hf as Hf2. apply sh_fill_safe in Hf2; [|assumption|reflexivity|lia].
    destruct (Last inner n2 s2 (proj2 Hf2)) as [r Hr]. exists 2%nat, inner, r.
    change (sh_follow 2 inner ask n s b) with
      (let '(s1, ok) := ashard_digest_block true s b in
       if ok then Some (n, s1) else if blk_height b <=? as_best s1 then Some (n, s1)
       else match sh_fill inner ask n s1 (add64 (as_best s1) 1) (blk_height b) with
            | None => None | Some (n2, s2) => sh_follow 1 inner ask n2 s2 b end).
    rewrite digest_not by lia. destruct (N.leb_spec (blk_height b) (as_best s)); [lia|].
    rewrite add64_s by lia. rewrite Hf. exact Hr.
Qed.
End follow.
