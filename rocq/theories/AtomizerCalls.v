(** Theorems about histories of calls of the atomizer. *)
From Coq Require Import NArith Lia List Bool.
From stdpp Require Import base decidable list gmap.
From Verif Require Import Base CodecModel TxModel MsgModel AtomizerModel AtomizerSpec AtomizerProofs.
Import ListNotations.
Open Scope N_scope.

(** Assumptions on the calls: heights far from 2^64 and, for insert, equal IDs mean equal
    transactions. *)
Definition call_height (c : call) : N :=
  match c with CInsert h _ _ => h | CComplete o _ => o | CMake => 0 end.
Definition inserted (cs : list call) : list compact_tx :=
  concat (map (fun c => match c with CInsert _ t _ => [t] | _ => [] end) cs).
Definition blocks_asked (cs : list call) : N :=
  len (List.filter (fun c => match c with CMake => true | _ => false end) cs).
Definition calls_ok (h0 d : N) (cs : list call) : Prop :=
  (forall c, c ∈ cs -> call_height c + d < two64) /\
  ids_honest (inserted cs) /\
  h0 + blocks_asked cs < two64.

Lemma inserted_app cs1 cs2 : inserted (cs1 ++ cs2) = inserted cs1 ++ inserted cs2.
Proof. unfold inserted. rewrite map_app, concat_app. reflexivity. Qed.
Lemma blocks_asked_app cs1 cs2 : blocks_asked (cs1 ++ cs2) = blocks_asked cs1 + blocks_asked cs2.
Proof. unfold blocks_asked, len. rewrite List.filter_app, app_length. lia. Qed.

Lemma calls_ok_l h0 d cs1 cs2 : calls_ok h0 d (cs1 ++ cs2) -> calls_ok h0 d cs1.
Proof.
  intros [H1 [H2 H3]]. split; [|split].
  - intros c Hc. apply H1. apply elem_of_app. left. exact Hc.
  - intros t1 t2 A B. apply H2; rewrite inserted_app; apply elem_of_app; left; assumption.
  - rewrite blocks_asked_app in H3. lia.
Qed.

Lemma do_calls_app cs1 : forall a cs2,
  do_calls a (cs1 ++ cs2) =
  abind (do_calls a cs1) (fun '(a1, t1) =>
    abind (do_calls a1 cs2) (fun '(a2, t2) => ADone (a2, t1 ++ t2))).
Proof.
  induction cs1 as [|c r IH]; intros a cs2; cbn [do_calls app].
  - cbn [abind]. destruct (do_calls a cs2) as [[a2 t2]| |]; reflexivity.
  - destruct (do_call a c) as [[a1 x]| |]; cbn [abind]; [|reflexivity|reflexivity].
    rewrite IH. destruct (do_calls a1 r) as [[a2 t2]| |]; cbn [abind]; [|reflexivity|reflexivity].
    destruct (do_calls a2 cs2) as [[a3 t3]| |]; reflexivity.
Qed.

Lemma do_calls_fst a cs a' tr : do_calls a cs = ADone (a', tr) -> map fst tr = cs.
Proof.
  revert a tr. induction cs as [|c r IH]; intros a tr H; cbn [do_calls] in H.
  - injection H as _ <-. reflexivity.
  - destruct (do_call a c) as [[a1 x]| |]; cbn [abind] in H; try discriminate.
    destruct (do_calls a1 r) as [[a2 t2]| |] eqn:E; cbn [abind] in H; try discriminate.
    injection H as -> <-. cbn [map fst]. f_equal. eapply IH. exact E.
Qed.

Lemma nblocks_asked (tr : trace) : nblocks tr = blocks_asked (map fst tr).
Proof.
  induction tr as [|[c x] r IH]; [reflexivity|].
  cbn [nblocks map fst]. unfold blocks_asked, len in *. cbn [List.filter].
  destruct c; cbn [length]; lia.
Qed.
Lemma insert_txs_inserted (tr : trace) : insert_txs tr = inserted (map fst tr).
Proof.
  induction tr as [|[c x] r IH]; [reflexivity|].
  cbn [insert_txs map fst]. unfold inserted in *. cbn [map concat]. destruct c; rewrite IH; reflexivity.
Qed.

(** One call from a reachable state. *)
Lemma do_call_inv h0 d tr a c a' x :
  AInv h0 d tr a -> calls_ok h0 d (map fst tr ++ [c]) -> do_call a c = ADone (a', x) ->
  AInv h0 d (tr ++ [(c, x)]) a'.
Proof.
  intros I [H1 [H2 H3]] H.
  rewrite blocks_asked_app, <- nblocks_asked in H3.
  pose proof (av_height _ _ _ _ I) as Hht.
  specialize (H1 c ltac:(apply elem_of_app; right; apply elem_of_list_here)).
  destruct c as [h t atts|o t|]; cbn [do_call call_height] in *.
  - destruct (insert a h t atts) as [[a1 e]| |] eqn:E; cbn [abind] in H; try discriminate.
    injection H as <- <-.
    refine (proj1 (insert_step h0 d tr a h t atts a1 e I _ H1 _ E)).
    + unfold blocks_asked in H3. cbn in H3. lia.
    + rewrite insert_txs_inserted. rewrite inserted_app in H2. exact H2.
  - assert (Hb : at_height a < two64) by (unfold blocks_asked in H3; cbn in H3; lia).
    destruct (insert_complete a o t) as [[a1 e]| |] eqn:E; cbn [abind] in H; try discriminate.
    injection H as <- <-.
    assert (Same : forall e, AInv h0 d (tr ++ [(CComplete o t, RTx e false)]) a).
    { intro e0. pose proof (AInv_same h0 d tr a (CComplete o t) e0 (at_txs a) I ltac:(discriminate) (av_txs_len _ _ _ _ I)) as X.
      destruct a as [x1 x2 x3 x4 x5]. cbn in X. apply X.
      intros o' layer k at' Ho Hk. apply pend_extend. exact (av_pend _ _ _ _ I _ _ _ _ Ho Hk). }
    assert (Grow : forall l (u : compact_tx), (len l <? len (l ++ [u])) = true).
    { intros l u. apply N.ltb_lt. unfold len. rewrite app_length. cbn [length]. lia. }
    destruct (decide (ctx_inputs t = [])) as [He|Hne].
    + destruct (decide (notification_offset a o = two64 - 1)) as [Ho|Ho].
      { exfalso. unfold insert_complete, check_notification_offset, check_stxo_cache in E.
        rewrite He, bool_decide_eq_true_2 in E by reflexivity. cbn [negb] in E.
        rewrite andb_false_r, Ho, N.eqb_refl in E. discriminate. }
      destruct (insert_complete_inputless h0 d tr a o t I He Ho) as [a2 [E2 [Hc I2]]].
      rewrite E in E2. injection E2 as -> ->. rewrite Hc, Grow. exact I2.
    + destruct (insert_complete_exact h0 d tr a o t I Hb H1 Hne) as [a2 [[_ E2]|[_ [ids [E2 [Hc [_ I2]]]]]]].
      * rewrite E in E2. injection E2 as -> ->. rewrite N.ltb_irrefl. apply Same.
      * rewrite E in E2. destruct ids as [|x0 ids]; injection E2 as -> ->.
        -- rewrite Hc, Grow. exact I2.
        -- rewrite N.ltb_irrefl. apply Same.
  - destruct (make_block a) as [[a1 [b es]]| |] eqn:E; cbn [abind] in H; try discriminate.
    injection H as <- <-.
    refine (proj1 (AInv_make h0 d tr a a1 b es I _ E)). unfold blocks_asked in H3. cbn in H3. lia.
Qed.

Lemma run_inv h0 d cs : forall a tr,
  calls_ok h0 d cs -> do_calls (atomizer_new h0 d) cs = ADone (a, tr) -> AInv h0 d tr a.
Proof.
  induction cs as [|c cs IH] using rev_ind; intros a tr Hok H.
  - injection H as <- <-. apply AInv_new.
  - rewrite do_calls_app in H.
    destruct (do_calls (atomizer_new h0 d) cs) as [[a1 t1]| |] eqn:E; cbn [abind] in H; try discriminate.
    cbn [do_calls] in H.
    destruct (do_call a1 c) as [[a2 x]| |] eqn:E2; cbn [abind] in H; try discriminate.
    injection H as <- <-.
    eapply do_call_inv; [apply IH; [eapply calls_ok_l; exact Hok|reflexivity]| |exact E2].
    rewrite (do_calls_fst _ _ _ _ E). exact Hok.
Qed.

(** ** insert_complete: exact verdict *)
Theorem complete_exact h0 d cs a tr o t :
  calls_ok h0 d cs -> do_calls (atomizer_new h0 d) cs = ADone (a, tr) ->
  o + d < two64 -> ctx_inputs t <> [] ->
  let best := h0 + nblocks tr in
  let fits := o <= best <= o + d in
  let spent x := exists u, u ∈ accepted_from h0 o tr /\ x ∈ ctx_inputs u in
  exists a' r, do_call a (CComplete o t) = ADone (a', r) /\
    ( (r = RTx None true /\ fits /\ forall x, x ∈ ctx_inputs t -> ~ spent x)
   \/ (r = RTx (Some (TxErr (ctx_id t) EStxoRange)) false /\ ~ fits /\ a' = a)
   \/ (exists ids, r = RTx (Some (TxErr (ctx_id t) (EInputsSpent ids))) false /\ fits /\ a' = a /\
         ids <> [] /\ forall x, x ∈ ids <-> x ∈ ctx_inputs t /\ spent x)).
Proof.
  intros Hok H Ho Hne best fits spent.
  pose proof (run_inv h0 d cs a tr Hok H) as I.
  assert (Hht : at_height a = best) by apply (av_height _ _ _ _ I).
  assert (Hb : best < two64).
  { destruct Hok as [_ [_ H3]]. unfold best. rewrite nblocks_asked, (do_calls_fst _ _ _ _ H). exact H3. }
  destruct (insert_complete_exact h0 d tr a o t I ltac:(lia) Ho Hne) as [a2 [[Hw E]|[Hw [ids [E [Hc [Hids _]]]]]]].
  - exists a. eexists. cbn [do_call]. rewrite E. cbn [abind]. rewrite N.ltb_irrefl.
    split; [reflexivity|]. right. left. split; [reflexivity|]. split; [|reflexivity].
    unfold fits. lia.
  - destruct ids as [|x0 ids].
    + exists a2. eexists. cbn [do_call]. rewrite E. cbn [abind]. split; [reflexivity|].
      left. split; [|split].
      * f_equal. apply N.ltb_lt. rewrite Hc. unfold len. rewrite app_length. cbn [length]. lia.
      * unfold fits. lia.
      * intros x Hx Hs. assert (Hn : x ∈ @nil N) by (apply Hids; split; [exact Hx|exact Hs]).
        inversion Hn.
    + exists a. eexists. cbn [do_call]. rewrite E. cbn [abind]. rewrite N.ltb_irrefl.
      split; [reflexivity|]. right. right. exists (x0 :: ids). split; [reflexivity|].
      split; [unfold fits; lia|]. split; [reflexivity|]. split; [discriminate|]. exact Hids.
Qed.

(** ** insert: every input attested within the depth, none spent since *)
Lemma pigeon (total : list N) (n : nat) :
  base.NoDup total -> length total = n -> (forall i, i ∈ total -> i < N.of_nat n) ->
  forall i, i < N.of_nat n -> i ∈ total.
Proof.
  intros Hn Hl Hb i Hi.
  assert (Hnd : List.NoDup (map N.to_nat total)).
  { apply FinFun.Injective_map_NoDup; [intros x y; apply N2Nat.inj|]. apply NoDup_ListNoDup. exact Hn. }
  assert (Hincl : incl (map N.to_nat total) (seq 0 n)).
  { intros j Hj. apply in_map_iff in Hj. destruct Hj as [k [<- Hk]].
    apply elem_of_list_In, Hb in Hk. apply in_seq. lia. }
  assert (X : incl (seq 0 n) (map N.to_nat total)).
  { apply NoDup_length_incl; [exact Hnd| |exact Hincl]. rewrite map_length, seq_length. lia. }
  assert (Hin : In (N.to_nat i) (seq 0 n)) by (apply in_seq; lia).
  apply X, in_map_iff in Hin. destruct Hin as [k [Hk1 Hk2]].
  apply N2Nat.inj in Hk1. subst k. apply elem_of_list_In. exact Hk2.
Qed.

Theorem insert_accepts h0 d cs a tr h t atts a' e :
  calls_ok h0 d (cs ++ [CInsert h t atts]) ->
  (forall h' t' as', CInsert h' t' as' ∈ cs ++ [CInsert h t atts] -> ctx_id t' = ctx_id t ->
     forall i, i ∈ as' -> i < len (ctx_inputs t)) ->
  do_calls (atomizer_new h0 d) cs = ADone (a, tr) ->
  do_call a (CInsert h t atts) = ADone (a', RTx e true) ->
  let best := h0 + nblocks tr in
  e = None /\
  exists oldest, oldest <= best <= oldest + d /\
    (forall i, i < len (ctx_inputs t) ->
       exists h' t' as', CInsert h' t' as' ∈ cs ++ [CInsert h t atts] /\
         ctx_id t' = ctx_id t /\ i ∈ as' /\ oldest <= h' <= best) /\
    (forall x u, x ∈ ctx_inputs t -> u ∈ accepted_from h0 oldest tr -> x ∉ ctx_inputs u).
Proof.
  intros Hok Hidx H Hc best.
  pose proof (run_inv h0 d cs a tr (calls_ok_l _ _ _ _ Hok) H) as I.
  assert (Hht : at_height a = best) by apply (av_height _ _ _ _ I).
  pose proof (do_calls_fst _ _ _ _ H) as Hfst.
  destruct Hok as [H1 [H2 H3]].
  assert (Hb : best < two64).
  { unfold best. rewrite nblocks_asked, Hfst. rewrite blocks_asked_app in H3. lia. }
  cbn [do_call] in Hc.
  destruct (insert a h t atts) as [[a1 e1]| |] eqn:E; cbn [abind] in Hc; try discriminate.
  injection Hc as <- <- Hmore.
  destruct (insert_step h0 d tr a h t atts a1 e1 I ltac:(lia)) as [_ Hst].
  - apply (H1 (CInsert h t atts)). apply elem_of_app. right. apply elem_of_list_here.
  - rewrite insert_txs_inserted, Hfst. rewrite inserted_app in H2. exact H2.
  - exact E.
  - destruct (Hst Hmore) as [He [oldest [total [T1 [T2 [T3 [T4 T5]]]]]]].
    split; [exact He|]. exists oldest. split; [lia|]. split.
    + assert (Hcalls : forall h' t' as' r, (CInsert h' t' as', r) ∈ tr ++ [(CInsert h t atts, RTx e1 (len (at_complete a) <? len (at_complete a1)))] ->
         CInsert h' t' as' ∈ cs ++ [CInsert h t atts]).
      { intros h' t' as' r Hin. apply elem_of_app. apply elem_of_app in Hin. destruct Hin as [Hin|Hin].
        - left. rewrite <- Hfst. apply elem_of_list_In, in_map_iff.
          exists (CInsert h' t' as', r). split; [reflexivity|]. apply elem_of_list_In. exact Hin.
        - right. apply elem_of_list_singleton in Hin. injection Hin as -> -> -> _.
          apply elem_of_list_here. }
      intros i Hi.
      assert (Hit : i ∈ total).
      { eapply pigeon; [exact T1|exact T2| |].
        - intros j Hj. destruct (T4 j Hj) as [h' [t' [as' [r [A [B [C D]]]]]]].
          unfold len in Hidx. eapply Hidx; [eapply Hcalls; exact A|exact B|exact C].
        - exact Hi. }
      destruct (T4 i Hit) as [h' [t' [as' [r [A [B [C D]]]]]]].
      exists h', t', as'. split; [eapply Hcalls; exact A|]. split; [exact B|]. split; [exact C|]. lia.
    + exact T5.
Qed.

(** ** Blocks *)
Theorem block_contents h0 d cs a tr a' b es :
  calls_ok h0 d (cs ++ [CMake]) ->
  do_calls (atomizer_new h0 d) cs = ADone (a, tr) ->
  do_call a CMake = ADone (a', RBlock b es) ->
  blk_height b = h0 + nblocks tr + 1 /\
  Forall2 (fun t1 t2 => ctx_id t1 = ctx_id t2 /\ same_tx t1 t2) (blk_txs b) (accepted_since [] tr).
Proof.
  intros Hok H Hc.
  pose proof (run_inv h0 d cs a tr (calls_ok_l _ _ _ _ Hok) H) as I.
  cbn [do_call] in Hc.
  destruct (make_block a) as [[a1 [b1 es1]]| |] eqn:E; cbn [abind] in Hc; try discriminate.
  injection Hc as <- <- <-.
  destruct Hok as [_ [_ H3]]. rewrite blocks_asked_app, <- (do_calls_fst _ _ _ _ H), <- nblocks_asked in H3.
  unfold blocks_asked in H3. cbn in H3.
  destruct (AInv_make h0 d tr a a1 b1 es1 I ltac:(rewrite (av_height _ _ _ _ I); lia) E) as [_ [Hb Ht]].
  split; [rewrite Hb, (av_height _ _ _ _ I); lia|]. exact Ht.
Qed.
