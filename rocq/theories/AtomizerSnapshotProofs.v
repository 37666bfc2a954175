(** Proofs about snapshots and replicas. *)
From Coq Require Import NArith List Bool Lia.
From stdpp Require Import base decidable list gmap.
From Verif Require Import Base CodecModel CodecProofs TxModel MsgModel MsgProofs WireProofs
  AtomizerModel AtomizerSpec AtomizerProofs AtomizerSmProofs AtomizerSnapshotModel AtomizerSnapshotSpec.
Import ListNotations.
Open Scope N_scope.

(** ** The codec *)
Lemma consuming_compact_tx : consuming c_compact_tx.
Proof. apply consuming_iso. apply consuming_pair; auto 10 with codec. Qed.
Lemma lawful_atomizer : lawful c_atomizer.
Proof.
  apply lawful_iso; [now intros []|].
  repeat apply lawful_pair; try apply lawful_vec; auto with codec.
  apply lawful_map; [auto with codec|apply lawful_uset; auto with codec|apply consuming_compact_tx].
Qed.
Lemma lawful_snapshot : lawful c_snapshot.
Proof.
  apply lawful_iso; [now intros [m []]|].
  repeat apply lawful_pair; [apply lawful_buffer|apply lawful_atomizer|].
  apply lawful_map; auto with codec.
Qed.

(** ** States of a state machine are representable *)
Record DInv (d : N) (nb : N) (txs : list compact_tx) (s : sm) : Prop := {
  di_depth : at_depth (sm_at s) = d;
  di_height : at_height (sm_at s) = nb;
  di_txs : at_txs (sm_at s) = repeat [] (S (N.to_nat d));
  di_complete : Forall (fun t => t ∈ txs) (at_complete (sm_at s));
  di_clen : (length (at_complete (sm_at s)) <= length txs)%nat;
  di_spent : Forall (fun l => base.NoDup l /\ Forall (fun x => x ∈ concat (map ctx_inputs txs)) l) (at_spent (sm_at s));
  di_slen : length (at_spent (sm_at s)) = S (N.to_nat d);
  di_keys : base.NoDup (map fst (sm_blocks s));
  di_bound : Forall (fun p => fst p = blk_height (snd p) /\ fst p <= nb) (sm_blocks s);
  di_blocks : Forall (fun p => Forall (fun t => t ∈ txs) (blk_txs (snd p)) /\
                (length (blk_txs (snd p)) <= length txs)%nat) (sm_blocks s) }.

Lemma DInv_more d nb txs s new : DInv d nb txs s -> DInv d nb (txs ++ new) s.
Proof.
  intros [H1 H2 H3 H4 H5 H6 H7 H8 H9 H10]. constructor; try assumption.
  - eapply Forall_impl; [exact H4|]. intros t Ht. apply elem_of_app. left. exact Ht.
  - rewrite app_length. lia.
  - eapply Forall_impl; [exact H6|]. intros l [A B]. split; [exact A|].
    eapply Forall_impl; [exact B|]. intros x Hx. rewrite map_app, concat_app. apply elem_of_app. left. exact Hx.
  - eapply Forall_impl; [exact H10|]. intros p [A B]. split; [|rewrite app_length; lia].
    eapply Forall_impl; [exact A|]. intros t Ht. apply elem_of_app. left. exact Ht.
Qed.

Lemma emplace_all_inv (P : N -> Prop) ins : forall l,
  base.NoDup l -> Forall P l -> Forall P ins ->
  base.NoDup (fold_left emplace_set ins l) /\ Forall P (fold_left emplace_set ins l).
Proof.
  induction ins as [|x ins IH]; intros l Hn Hl Hi; [tauto|]. cbn [fold_left].
  inversion Hi as [|? ? Hx Hr]; subst. apply IH; [| |exact Hr].
  - unfold emplace_set. destruct (decide (x ∈ l)) as [E|E]; [exact Hn|].
    apply NoDup_app. split; [exact Hn|]. split.
    + intros y Hy Hy2. apply elem_of_list_singleton in Hy2. subst. contradiction.
    + apply NoDup_singleton.
  - unfold emplace_set. destruct (decide (x ∈ l)); [exact Hl|].
    apply Forall_app. split; [exact Hl|]. constructor; [exact Hx|constructor].
Qed.

Lemma DInv_insert d nb txs s o t a' e :
  DInv d nb txs s -> insert_complete (sm_at s) o t = ADone (a', e) ->
  DInv d nb (txs ++ [t]) (Sm a' (sm_blocks s)).
Proof.
  intros I H. unfold insert_complete in H.
  destruct (check_notification_offset _ _ t) as [e0|].
  - injection H as <- <-. apply DInv_more. destruct s. exact I.
  - destruct (check_stxo_cache _ t _) as [[e0|]| |]; cbn [abind] in H; try discriminate.
    + injection H as <- <-. apply DInv_more. destruct s. exact I.
    + destruct (add_tx_to_stxo_cache (sm_at s) t) as [a2| |] eqn:E; cbn [abind] in H; try discriminate.
      injection H as <- <-.
      pose proof (di_clen _ _ _ _ I) as Hlen.
      apply (DInv_more _ _ _ _ [t]) in I. destruct I as [H1 H2 H3 H4 H5 H6 H7 H8 H9 H10].
      unfold add_tx_to_stxo_cache in E. destruct (at_spent (sm_at s)) as [|l r] eqn:Es; [discriminate|].
      injection E as <-. unfold push_complete.
      constructor; cbn [sm_at sm_blocks at_depth at_height at_txs at_complete at_spent]; try assumption.
      * apply Forall_app. split; [exact H4|]. constructor; [|constructor].
        apply elem_of_app. right. apply elem_of_list_here.
      * rewrite !app_length. cbn [length]. lia.
      * inversion H6 as [|? ? [A B] C]; subst. constructor; [|exact C].
        apply emplace_all_inv; [exact A|exact B|].
        apply Forall_forall. intros x Hx. rewrite map_app, concat_app. apply elem_of_app. right.
        cbn. rewrite app_nil_r. exact Hx.
Qed.

Lemma DInv_insert_all d nb ts : forall txs s a' es,
  DInv d nb txs s -> insert_all (sm_at s) ts = ADone (a', es) ->
  DInv d nb (txs ++ map snd ts) (Sm a' (sm_blocks s)).
Proof.
  induction ts as [|[o t] ts IH]; intros txs s a' es I H; cbn [insert_all] in H.
  - injection H as <- <-. cbn [map]. rewrite app_nil_r. destruct s. exact I.
  - destruct (insert_complete (sm_at s) o t) as [[a1 e]| |] eqn:E; cbn [abind] in H; try discriminate.
    destruct (insert_all a1 ts) as [[a2 es2]| |] eqn:E2; cbn [abind] in H; try discriminate.
    injection H as <- <-. cbn [map snd].
    change (t :: map snd ts) with ([t] ++ map snd ts). rewrite app_assoc.
    apply (IH _ (Sm a1 (sm_blocks s)) _ es2); [|exact E2].
    eapply DInv_insert; [exact I|exact E].
Qed.

Lemma DInv_commit d nb txs s q s' x :
  DInv d nb txs s -> sm_commit s q = ADone (s', x) ->
  nb + 1 < two64 \/ (match q with QMakeBlock => False | _ => True end) ->
  DInv d (nb + match q with QMakeBlock => 1 | _ => 0 end)
    (txs ++ match q with QAgg ts => map snd ts | _ => [] end) s'.
Proof.
  intros I H Hb. destruct q as [ts| |h|h]; cbn [sm_commit] in H; rewrite ?N.add_0_r, ?app_nil_r.
  - destruct (insert_all (sm_at s) ts) as [[a es]| |] eqn:E; cbn [abind] in H; try discriminate.
    injection H as <- <-. eapply DInv_insert_all; [exact I|exact E].
  - destruct Hb as [Hb|[]].
    unfold make_block in H. destruct I as [H1 H2 H3 H4 H5 H6 H7 H8 H9 H10].
    rewrite H1, H3 in H.
    destruct (repeat [] (S (N.to_nat d)) !! N.to_nat d) as [old|]; cbn [abind] in H; [|discriminate].
    assert (Hh : add64 (at_height (sm_at s)) 1 = nb + 1).
    { rewrite H2. unfold add64, wrap64. apply N.mod_small. exact Hb. }
    rewrite Hh in H. injection H as <- <-.
    assert (Hfresh : ~ nb + 1 ∈ map fst (sm_blocks s)).
    { intro Hin. apply elem_of_list_In, in_map_iff in Hin. destruct Hin as [p [Hp Hin]].
      rewrite Forall_forall in H9. apply elem_of_list_In in Hin. apply H9 in Hin. lia. }
    assert (Hem : emplace_map (sm_blocks s) (nb + 1) (Block (nb + 1) (at_complete (sm_at s)))
                  = sm_blocks s ++ [(nb + 1, Block (nb + 1) (at_complete (sm_at s)))]).
    { unfold emplace_map. rewrite decide_False by exact Hfresh. reflexivity. }
    cbn [blk_height]. rewrite Hem.
    constructor; cbn [sm_at sm_blocks at_depth at_height at_txs at_complete at_spent]; try assumption; try reflexivity.
    + cbn [repeat]. f_equal. clear. induction (N.to_nat d) as [|n IH]; [reflexivity|].
      cbn [repeat firstn] in *. f_equal. exact IH.
    + constructor.
    + cbn. lia.
    + constructor; [split; constructor|]. apply Forall_take. exact H6.
    + cbn [length]. rewrite firstn_length, H7. lia.
    + rewrite map_app. apply NoDup_app. split; [exact H8|]. split; [|apply NoDup_singleton].
      intros y Hy Hy2. cbn in Hy2. apply elem_of_list_singleton in Hy2. subst. contradiction.
    + apply Forall_app. split.
      * eapply Forall_impl; [exact H9|]. intros p [A B]. split; [exact A|lia].
      * constructor; [|constructor]. cbn. split; [reflexivity|lia].
    + apply Forall_app. split; [exact H10|]. constructor; [|constructor]. cbn. split; assumption.
  - injection H as <- <-. exact I.
  - injection H as <- <-. destruct I as [H1 H2 H3 H4 H5 H6 H7 H8 H9 H10].
    constructor; cbn [sm_at sm_blocks]; try assumption.
    + clear -H8. induction (sm_blocks s) as [|p l IH]; cbn [List.filter]; [constructor|].
      inversion H8 as [|? ? A B]; subst. destruct (negb _); [|apply IH; exact B].
      cbn [map]. constructor; [|apply IH; exact B]. intro Hin. apply A.
      apply elem_of_list_In, in_map_iff in Hin. destruct Hin as [z [Hz Hin]].
      apply List.filter_In in Hin. apply elem_of_list_In, in_map_iff. exists z. tauto.
    + apply Forall_forall. intros p Hp. apply elem_of_list_In, List.filter_In in Hp.
      rewrite Forall_forall in H9. apply H9, elem_of_list_In. tauto.
    + apply Forall_forall. intros p Hp. apply elem_of_list_In, List.filter_In in Hp.
      rewrite Forall_forall in H10. apply H10, elem_of_list_In. tauto.
Qed.

Lemma DInv_new d : DInv d 0 [] (sm_new d).
Proof.
  constructor; cbn [sm_new atomizer_new sm_at sm_blocks at_depth at_height at_txs at_complete at_spent];
    try reflexivity; try constructor; try (cbn; lia).
  - split; constructor.
  - induction (N.to_nat d); cbn [repeat]; constructor; [split; constructor|assumption].
  - cbn. rewrite repeat_length. reflexivity.
Qed.

Lemma DInv_log d : forall l nb txs s s',
  DInv d nb txs s -> nb + block_requests (log_requests l) < two64 -> log_state s l = ADone s' ->
  DInv d (nb + block_requests (log_requests l)) (txs ++ log_txs l) s'.
Proof.
  induction l as [|[q|] l IH]; intros nb txs s s' I Hb H; cbn [log_state] in H.
  - injection H as <-. unfold block_requests, log_requests, log_txs, len. cbn.
    rewrite N.add_0_r, app_nil_r. exact I.
  - destruct (sm_commit s q) as [[s1 x]| |] eqn:E; cbn [abind] in H; try discriminate.
    assert (Hq : block_requests (log_requests (Some q :: l)) =
                 match q with QMakeBlock => 1 | _ => 0 end + block_requests (log_requests l)).
    { unfold block_requests, log_requests, len. cbn [map concat app List.filter].
      destruct q; cbn [length]; lia. }
    rewrite Hq in Hb |- *.
    assert (I1 := DInv_commit d nb txs s q s1 x I E).
    specialize (IH (nb + match q with QMakeBlock => 1 | _ => 0 end)
                   (txs ++ match q with QAgg ts => map snd ts | _ => [] end) s1 s').
    rewrite <- N.add_assoc, <- app_assoc in IH. apply IH; [apply I1| |exact H].
    + destruct q; try (right; exact Logic.I). left. lia.
    + lia.
  - exact (IH nb txs s s' I Hb H).
Qed.

Lemma DInv_dom d nb txs s m :
  DInv d nb txs s -> d + 1 < two64 -> nb < two64 - 1 -> Forall (dom c_compact_tx) txs ->
  len txs < two64 -> len (concat (map ctx_inputs txs)) < two64 -> dom c_buffer m ->
  dom c_snapshot (m, s).
Proof.
  intros [H1 H2 H3 H4 H5 H6 H7 H8 H9 H10] Hd Hnb Ht Hl Hi Hm.
  assert (Hdt : forall l, Forall (fun t => t ∈ txs) l -> Forall (dom c_compact_tx) l).
  { intros l Hf. eapply Forall_impl; [exact Hf|]. intros t. apply Forall_forall. exact Ht. }
  assert (Hdi : forall x, x ∈ concat (map ctx_inputs txs) -> dom c_hash x).
  { intros x Hx. apply elem_of_list_In, in_concat in Hx. destruct Hx as [l [Hl1 Hl2]].
    apply in_map_iff in Hl1. destruct Hl1 as [t [<- Hin]].
    rewrite Forall_forall in Ht. apply elem_of_list_In in Hin. apply Ht in Hin.
    cbn [dom c_compact_tx c_iso c_pair fst snd] in Hin. destruct Hin as [[[_ [_ Hin]] _] _].
    rewrite Forall_forall in Hin. apply Hin, elem_of_list_In, Hl2. }
  cbn [dom c_snapshot c_iso c_pair fst snd c_atomizer].
  split; [split; [exact Hm|]|].
  - cbn [dom c_vec c_u64 c_uint]. change (256 ^ N.of_nat 8) with two64.
    split; [split; [split; [split|]|]|].
    + rewrite H1. lia.
    + rewrite H2. lia.
    + split; [unfold len in *; lia|]. apply Hdt. exact H4.
    + split; [unfold len in *; rewrite H7; lia|]. eapply Forall_impl; [exact H6|].
      intros l [A B]. cbn [dom c_uset]. split; [|split].
      * assert (Hs : l ⊆+ concat (map ctx_inputs txs)).
        { apply NoDup_submseteq; [exact A|]. intros x Hx. rewrite Forall_forall in B. apply B. exact Hx. }
        apply submseteq_length in Hs. unfold len in *. unfold hash in *. lia.
      * exact A.
      * eapply Forall_impl; [exact B|]. exact Hdi.
    + rewrite H3. split; [unfold len; rewrite repeat_length; lia|].
      apply Forall_forall. intros l Hin. apply elem_of_list_In, repeat_spec in Hin. subst l.
      cbn [dom c_map]. split; [reflexivity|]. split; constructor.
  - cbn [dom c_map]. split; [|split].
    + assert (Hs : map fst (sm_blocks s) ⊆+ map N.of_nat (seq 0 (S (N.to_nat nb)))).
      { apply NoDup_submseteq; [exact H8|]. intros x Hx.
        apply elem_of_list_In, in_map_iff in Hx. destruct Hx as [p [<- Hin]].
        rewrite Forall_forall in H9. apply elem_of_list_In in Hin. apply H9 in Hin.
        apply elem_of_list_In, in_map_iff. exists (N.to_nat (fst p)).
        rewrite N2Nat.id. split; [reflexivity|]. apply in_seq. lia. }
      apply submseteq_length in Hs. rewrite !map_length, seq_length in Hs. unfold len. lia.
    + exact H8.
    + apply Forall_forall. intros p Hp. rewrite Forall_forall in H9, H10.
      destruct (H9 p Hp) as [A B]. destruct (H10 p Hp) as [C D].
      cbn [dom c_u64 c_uint c_block c_iso c_pair c_vec fst snd]. change (256 ^ N.of_nat 8) with two64.
      split; [lia|]. split; [lia|]. split; [unfold len in *; lia|]. apply Hdt. exact C.
Qed.

(** ** The reference run *)
Lemma log_state_app s l1 l2 : log_state s (l1 ++ l2) = abind (log_state s l1) (fun s' => log_state s' l2).
Proof.
  revert s. induction l1 as [|[q|] l1 IH]; intro s; cbn [app log_state abind]; [reflexivity| |apply IH].
  destruct (sm_commit s q) as [[s1 x]| |]; cbn [abind]; [apply IH|reflexivity|reflexivity].
Qed.
Lemma log_state_sm s l : log_state s l = abind (sm_run s (log_requests l)) (fun '(s', _) => ADone s').
Proof.
  revert s. induction l as [|[q|] l IH]; intro s; cbn [log_state].
  - reflexivity.
  - unfold log_requests. cbn [map concat app sm_run].
    destruct (sm_commit s q) as [[s1 x]| |]; cbn [abind]; [|reflexivity|reflexivity].
    rewrite IH. unfold log_requests. destruct (sm_run s1 _) as [[s2 xs]| |]; reflexivity.
  - apply IH.
Qed.
Lemma log_fits_prefix d l1 l2 : log_fits d (l1 ++ l2) -> log_fits d l1.
Proof.
  intros [H1 H2 H3 H4 HL H5 H6].
  unfold log_requests, log_txs in *. rewrite !map_app, !concat_app in *.
  constructor; unfold log_requests, log_txs.
  - exact H1.
  - intros r Hr. apply H2. apply elem_of_app. left. exact Hr.
  - unfold block_requests, len in *. rewrite List.filter_app, app_length in H3. lia.
  - apply Forall_app in H4. tauto.
  - unfold len in *. rewrite app_length in HL. lia.
  - unfold len in *. rewrite app_length in H5. lia.
  - rewrite map_app, concat_app in H6. unfold len in *. rewrite app_length in H6. lia.
Qed.
Lemma log_state_defined d l m : log_fits d l -> dom c_buffer m ->
  exists s, log_state (sm_new d) l = ADone s /\ dom c_snapshot (m, s).
Proof.
  intros F Hm. pose proof F as [H1 H2 H3 H4 HL H5 H6].
  destruct (sm_refines_ledger d (log_requests l) H2 H3) as [s [xs [g [E _]]]].
  exists s. assert (E2 : log_state (sm_new d) l = ADone s) by (rewrite log_state_sm, E; reflexivity).
  split; [exact E2|].
  pose proof (DInv_log d l 0 [] (sm_new d) s (DInv_new d) ltac:(lia) E2) as I.
  cbn [app] in I. eapply DInv_dom; [exact I|exact H1|lia|exact H4|exact H5|exact H6|exact Hm].
Qed.

(** ** Replicas *)
Section replicas.
Context (meta_enc : N -> bytes) (meta_dec : bytes -> N).
Hypothesis meta_rt : forall i, i < two64 -> meta_dec (meta_enc i) = i.
Hypothesis meta_ok : forall i, i < two64 -> dom c_buffer (meta_enc i).
Context (d : N).

Definition good_file (log : list (option sm_request)) (p : N * bytes) : Prop :=
  0 < fst p /\ fst p <= len log /\
  exists s, log_state (sm_new d) (take (N.to_nat (fst p)) log) = ADone s /\
    snd p = enc c_snapshot (meta_enc (fst p), s).
Definition good_dir (log : list (option sm_request)) (sd : snpdir) : Prop :=
  Forall (good_file log) (sd_files sd).
Definition good_rep (log : list (option sm_request)) (r : replica) : Prop :=
  rp_idx r <= len log /\
  log_state (sm_new d) (take (N.to_nat (rp_idx r)) log) = ADone (rp_sm r) /\
  good_dir log (rp_dir r).
Definition good_world (w : world) : Prop :=
  Forall (good_rep (w_log w)) (w_reps w) /\
  forall j i x, (j, i, x) ∈ w_answers w -> log_answer d (w_log w) i x.

Lemma decode_good log i data : log_fits d log -> good_file log (i, data) ->
  exists s, log_state (sm_new d) (take (N.to_nat i) log) = ADone s /\
    decode_snapshot meta_dec data = SnOk i s.
Proof.
  intros F [A [B [s [C D]]]]. cbn [fst snd] in *.
  assert (Hi : i < two64) by (pose proof (lf_length _ _ F); lia). exists s. split; [exact C|]. subst data.
  rewrite <- (firstn_skipn (N.to_nat i) log) in F. apply log_fits_prefix in F.
  destruct (log_state_defined d _ (meta_enc i) F (meta_ok i Hi)) as [s2 [E Hd]].
  rewrite C in E. injection E as <-.
  pose proof (l_rt _ lawful_snapshot (meta_enc i, s) [] Hd) as R. rewrite app_nil_r in R.
  unfold decode_snapshot. rewrite R, (meta_rt i Hi). reflexivity.
Qed.

Lemma max_index_spec l : forall m,
  let r := fold_left (fun m (p : N * bytes) => if m <? fst p then fst p else m) l m in
  (r = m \/ exists p, p ∈ l /\ fst p = r) /\ m <= r /\ forall p, p ∈ l -> fst p <= r.
Proof.
  induction l as [|p l IH]; intro m; cbn [fold_left].
  - split; [left; reflexivity|]. split; [lia|]. intros p Hp. inversion Hp.
  - specialize (IH (if m <? fst p then fst p else m)). cbv zeta in IH.
    destruct IH as [A [B C]]. destruct (N.ltb_spec m (fst p)).
    + split; [|split].
      * right. destruct A as [A|[q [Hq A]]]; [exists p; rewrite A; split; [apply elem_of_list_here|reflexivity]|].
        exists q. split; [apply elem_of_list_further; exact Hq|exact A].
      * lia.
      * intros q Hq. apply elem_of_cons in Hq. destruct Hq as [->|Hq]; [exact B|exact (C q Hq)].
    + split; [|split].
      * destruct A as [A|[q [Hq A]]]; [left; exact A|right].
        exists q. split; [apply elem_of_list_further; exact Hq|exact A].
      * lia.
      * intros q Hq. apply elem_of_cons in Hq. destruct Hq as [->|Hq]; [lia|exact (C q Hq)].
Qed.

Lemma sd_read_in sd i data : sd_read sd i = Some data -> (i, data) ∈ sd_files sd.
Proof.
  unfold sd_read. destruct (List.find _ _) as [p|] eqn:E; [|discriminate]. intro H. injection H as <-.
  apply find_some in E. destruct E as [A B]. apply N.eqb_eq in B. subst i.
  apply elem_of_list_In. destruct p. exact A.
Qed.
Lemma sd_read_some sd p : p ∈ sd_files sd -> exists data, sd_read sd (fst p) = Some data.
Proof.
  intro H. unfold sd_read. destruct (List.find _ _) as [q|] eqn:E; [eauto|].
  exfalso. eapply find_none in E; [|apply elem_of_list_In; exact H]. rewrite N.eqb_refl in E. discriminate.
Qed.

Lemma read_good log sd i : log_fits d log -> good_dir log sd -> i <> 0 ->
  forall data, sd_read sd i = Some data ->
  exists s, log_state (sm_new d) (take (N.to_nat i) log) = ADone s /\
    read_snapshot meta_dec sd i = SnOk i s.
Proof.
  intros F G Hi data Hd. unfold read_snapshot.
  destruct (N.eqb_spec i 0); [contradiction|]. rewrite Hd.
  eapply decode_good; [exact F|]. unfold good_dir in G. rewrite Forall_forall in G.
  apply G, sd_read_in, Hd.
Qed.

Lemma start_good log sd : log_fits d log -> good_dir log sd ->
  exists s i, sm_start meta_dec d sd = Some (s, i) /\ good_rep log (Replica s i sd) /\
    (forall p, p ∈ sd_files sd -> fst p <= i).
Proof.
  intros F G. unfold sm_start.
  destruct (max_index_spec (sd_files sd) 0) as [A [_ C]].
  fold (max_index sd) in A, C.
  assert (R0 : read_snapshot meta_dec sd 0 =
    if max_index sd =? 0 then SnNone
    else match sd_read sd (max_index sd) with
         | Some data => decode_snapshot meta_dec data | None => SnExit end) by reflexivity.
  rewrite R0. destruct (N.eqb_spec (max_index sd) 0) as [Hz|Hz].
  - exists (sm_new d), 0. split; [reflexivity|]. split; [|rewrite Hz in C; exact C].
    split; [cbn; lia|]. split; [reflexivity|exact G].
  - destruct A as [A|[p [Hp A]]]; [contradiction|].
    destruct (sd_read_some sd p Hp) as [data Hd]. rewrite A in Hd.
    destruct (read_good log sd _ F G Hz data Hd) as [s [E R]].
    rewrite Hd. assert (Rd : decode_snapshot meta_dec data = SnOk (max_index sd) s).
    { unfold read_snapshot in R. destruct (N.eqb_spec (max_index sd) 0); [contradiction|].
      rewrite Hd in R. exact R. }
    rewrite Rd, R. exists s, (max_index sd). split; [reflexivity|]. split; [|exact C].
    split; [|split; [exact E|exact G]].
    unfold good_dir in G. rewrite Forall_forall in G. apply sd_read_in, G in Hd. destruct Hd as [_ [Hd _]].
    exact Hd.
Qed.

Lemma good_rename log sd i data : good_dir log sd -> good_file log (i, data) ->
  good_dir log (sd_rename sd i data).
Proof.
  intros G F. unfold good_dir, sd_rename. cbn [sd_files]. constructor; [exact F|].
  apply Forall_forall. intros p Hp. apply elem_of_list_In, List.filter_In in Hp.
  unfold good_dir in G. rewrite Forall_forall in G. apply G, elem_of_list_In. tauto.
Qed.
Lemma good_sub log l f : Forall (good_file log) l -> Forall (good_file log) (List.filter f l).
Proof.
  intro G. apply Forall_forall. intros p Hp. apply elem_of_list_In, List.filter_In in Hp.
  rewrite Forall_forall in G. apply G, elem_of_list_In. tauto.
Qed.
Lemma good_write log sd i data p : good_dir log sd -> good_file log (i, data) ->
  good_dir log (write_snapshot sd i data p).
Proof.
  intros G F. destruct p as [|n|gone|]; cbn [write_snapshot]; [exact G|exact G| |];
    apply good_sub, good_rename; assumption.
Qed.
Lemma good_save log sd i data p : good_dir log sd -> good_file log (i, data) ->
  good_dir log (save_snapshot sd i data p).
Proof.
  intros G F. destruct p as [|n|gone|]; cbn [save_snapshot]; [exact G|exact G| |];
    apply good_rename; assumption.
Qed.

Lemma good_grow log e : (forall r, good_rep log r -> good_rep (log ++ [e]) r) /\
  (forall i x, log_answer d log i x -> log_answer d (log ++ [e]) i x).
Proof.
  assert (Hlen : len (log ++ [e]) = len log + 1) by (unfold len; rewrite app_length; cbn [length]; lia).
  assert (Htake : forall i, i <= len log -> take (N.to_nat i) (log ++ [e]) = take (N.to_nat i) log).
  { intros i Hi. apply take_app_le. unfold len in Hi. lia. }
  split.
  - intros r [A [B C]]. split; [lia|]. split; [rewrite Htake by exact A; exact B|].
    unfold good_dir in *. eapply Forall_impl; [exact C|]. intros p [P1 [P2 [s [P3 P4]]]].
    split; [exact P1|]. split; [lia|]. exists s. rewrite Htake by exact P2. tauto.
  - intros i x [q [s [s' [A [B C]]]]]. exists q, s, s'.
    pose proof (lookup_lt_Some _ _ _ A) as Hi. split; [rewrite lookup_app_l by exact Hi; exact A|].
    split; [|exact C]. rewrite Htake by (unfold len; lia). exact B.
Qed.

Lemma good_with w j r : good_world w -> good_rep (w_log w) r -> good_world (with_rep w j r).
Proof.
  intros [A B] G. split; [|exact B]. cbn [with_rep w_log w_reps]. apply Forall_insert; assumption.
Qed.

Definition good_result (w : world) (l : wlabel) (r : wresult) : Prop :=
  match r with WOk w' => good_world w' | WNo => True | WExit => False end.

Lemma restart_good w j sd : log_fits d (w_log w) -> good_world w -> good_dir (w_log w) sd ->
  exists w', restart meta_dec d w j sd = WOk w' /\ good_world w'.
Proof.
  intros F G S. destruct (start_good _ sd F S) as [s [i [E [R _]]]].
  unfold restart. rewrite E. eexists. split; [reflexivity|]. apply good_with; assumption.
Qed.

Lemma step_good w l : log_fits d (w_log w) -> good_world w ->
  good_result w l (wstep meta_enc meta_dec d w l).
Proof.
  intros F G. destruct l as [e|j|j p|j k i p|j]; cbn [wstep].
  - (* WAppend *) cbn [good_result]. destruct G as [A B]. destruct (good_grow (w_log w) e) as [C D].
    split; cbn [w_log w_reps w_answers].
    + eapply Forall_impl; [exact A|]. intros r Hr. apply C. exact Hr.
    + intros j i x Hin. apply D. eapply B. exact Hin.
  - (* WApply *)
    destruct (w_reps w !! j) as [r|] eqn:Er; [|exact Logic.I].
    destruct (w_log w !! N.to_nat (rp_idx r)) as [e|] eqn:El; [|exact Logic.I].
    pose proof G as [GA GB].
    assert (R : good_rep (w_log w) r).
    { rewrite Forall_forall in GA. apply GA. eapply elem_of_list_lookup_2. exact Er. }
    destruct R as [R1 [R2 R3]]. pose proof (lookup_lt_Some _ _ _ El) as Hlt.
    assert (Ht : take (N.to_nat (rp_idx r + 1)) (w_log w) = take (N.to_nat (rp_idx r)) (w_log w) ++ [e]).
    { replace (N.to_nat (rp_idx r + 1)) with (S (N.to_nat (rp_idx r))) by lia. apply take_S_r. exact El. }
    destruct e as [q|].
    + assert (F2 := F). rewrite <- (firstn_skipn (N.to_nat (rp_idx r + 1)) (w_log w)) in F2.
      apply log_fits_prefix in F2.
      destruct (log_state_defined d _ (meta_enc 0) F2 (meta_ok 0 eq_refl)) as [s2 [E _]].
      rewrite Ht, log_state_app, R2 in E. cbn [abind log_state] in E.
      destruct (sm_commit (rp_sm r) q) as [[s1 x]| |] eqn:Ec; cbn [abind] in E; try discriminate.
      injection E as <-. cbn [good_result].
      split; cbn [w_log w_reps w_answers].
      * apply Forall_insert; [exact GA|]. split; [cbn [rp_idx]; unfold len; lia|].
        split; [|exact R3]. cbn [rp_idx rp_sm]. rewrite Ht, log_state_app, R2. cbn [abind log_state].
        rewrite Ec. reflexivity.
      * intros j' i' x' Hin. apply elem_of_app in Hin. destruct Hin as [Hin|Hin]; [eapply GB; exact Hin|].
        apply elem_of_list_singleton in Hin. injection Hin as -> -> ->.
        exists q, (rp_sm r), s1. tauto.
    + cbn [good_result]. apply good_with; [exact G|]. split; [cbn [rp_idx]; unfold len; lia|].
      split; [|exact R3]. cbn [rp_idx rp_sm]. rewrite Ht, log_state_app, R2. reflexivity.
  - (* WSnapshot *)
    destruct (w_reps w !! j) as [r|] eqn:Er; [|exact Logic.I].
    destruct (N.eqb_spec (rp_idx r) 0) as [Hz|Hz]; [exact Logic.I|].
    assert (R : good_rep (w_log w) r).
    { destruct G as [GA _]. rewrite Forall_forall in GA. apply GA. eapply elem_of_list_lookup_2. exact Er. }
    destruct R as [R1 [R2 R3]].
    assert (D : good_dir (w_log w) (write_snapshot (rp_dir r) (rp_idx r)
                  (enc c_snapshot (meta_enc (rp_idx r), rp_sm r)) p)).
    { apply good_write; [exact R3|]. split; [cbn [fst]; lia|]. split; [exact R1|].
      exists (rp_sm r). split; [exact R2|reflexivity]. }
    destruct (restart_good w j _ F G D) as [w' [E GW]].
    destruct p as [|n|gone|]; try (rewrite E; exact GW).
    cbn [good_result]. apply good_with; [exact G|]. split; [exact R1|]. split; [exact R2|exact D].
  - (* WInstall *)
    destruct (w_reps w !! j) as [r|] eqn:Er; [|exact Logic.I].
    destruct (w_reps w !! k) as [r2|] eqn:Er2; [|exact Logic.I].
    destruct (sd_read (rp_dir r2) i) as [data|] eqn:Ed; [|exact Logic.I].
    pose proof G as [GA _]. rewrite Forall_forall in GA.
    destruct (GA r (elem_of_list_lookup_2 _ _ _ Er)) as [R1 [R2 R3]].
    destruct (GA r2 (elem_of_list_lookup_2 _ _ _ Er2)) as [Q1 [Q2 Q3]].
    assert (Gf : good_file (w_log w) (i, data)).
    { unfold good_dir in Q3. rewrite Forall_forall in Q3. apply Q3, sd_read_in, Ed. }
    assert (D : good_dir (w_log w) (save_snapshot (rp_dir r) i data p)) by (apply good_save; assumption).
    destruct (restart_good w j _ F G D) as [w' [E GW]].
    destruct p as [|n|gone|]; try (rewrite E; exact GW).
    destruct (read_good (w_log w) (save_snapshot (rp_dir r) i data PFinished) i F D) with (data := data)
      as [s [Es Rs]].
    + destruct Gf as [Gf _]. cbn [fst] in Gf. lia.
    + unfold save_snapshot, sd_rename, sd_read. cbn [sd_files List.find fst]. rewrite N.eqb_refl. reflexivity.
    + rewrite Rs. cbn [good_result]. apply good_with; [exact G|].
      split; [destruct Gf as [_ [Gf _]]; exact Gf|]. split; [exact Es|exact D].
  - destruct (w_reps w !! j) as [r|] eqn:Er; [|exact Logic.I].
    assert (R : good_rep (w_log w) r).
    { destruct G as [GA _]. rewrite Forall_forall in GA. apply GA. eapply elem_of_list_lookup_2. exact Er. }
    destruct R as [R1 [R2 R3]].
    destruct (restart_good w j _ F G R3) as [w' [E GW]]. rewrite E. exact GW.
Qed.

Lemma good_new n : good_world (world_new d n).
Proof.
  split; cbn [world_new w_log w_reps w_answers].
  - apply Forall_forall. intros r Hr. apply elem_of_list_In, repeat_spec in Hr. subst r.
    split; [cbn; lia|]. split; [reflexivity|constructor].
  - intros j i x H. inversion H.
Qed.

Lemma step_log w l w' : wstep meta_enc meta_dec d w l = WOk w' -> exists e, w_log w' = w_log w ++ e.
Proof.
  assert (R : forall w j sd w', restart meta_dec d w j sd = WOk w' -> w_log w' = w_log w).
  { intros w0 j sd w1 H. unfold restart in H. destruct (sm_start meta_dec d sd) as [[s i]|]; [|discriminate].
    injection H as <-. reflexivity. }
  assert (R2 : forall w j sd w', restart meta_dec d w j sd = WOk w' -> exists e, w_log w' = w_log w ++ e).
  { intros w0 j sd w1 H. exists []. rewrite app_nil_r. eapply R. exact H. }
  destruct l as [e|j|j p|j k i p|j]; cbn [wstep]; intro H.
  - injection H as <-. exists [e]. reflexivity.
  - exists []. rewrite app_nil_r. destruct (w_reps w !! j); [|discriminate].
    destruct (w_log w !! _) as [[q|]|]; [|injection H as <-; reflexivity|discriminate].
    destruct (sm_commit _ q) as [[s x]| |]; [|discriminate|discriminate]. injection H as <-. reflexivity.
  - destruct (w_reps w !! j); [|discriminate]. destruct (_ =? 0); [discriminate|].
    destruct p; try (eapply R2; exact H).
    injection H as <-. exists []. rewrite app_nil_r. reflexivity.
  - destruct (w_reps w !! j); [|discriminate]. destruct (w_reps w !! k); [|discriminate].
    destruct (sd_read _ i); [|discriminate]. destruct p; try (eapply R2; exact H).
    destruct (read_snapshot meta_dec _ i); [discriminate| |discriminate].
    injection H as <-. exists []. rewrite app_nil_r. reflexivity.
  - destruct (w_reps w !! j); [|discriminate]. eapply R2; exact H.
Qed.
Lemma run_log ls : forall w w', wrun meta_enc meta_dec d w ls = WOk w' -> exists e, w_log w' = w_log w ++ e.
Proof.
  induction ls as [|l ls IH]; intros w w' H; cbn [wrun] in H.
  - injection H as <-. exists []. rewrite app_nil_r. reflexivity.
  - destruct (wstep meta_enc meta_dec d w l) as [w1| |] eqn:E; try discriminate.
    destruct (step_log _ _ _ E) as [e1 E1]. destruct (IH _ _ H) as [e2 E2].
    exists (e1 ++ e2). rewrite E2, E1, app_assoc. reflexivity.
Qed.

Lemma run_good ls : forall w w', wrun meta_enc meta_dec d w ls = WOk w' ->
  log_fits d (w_log w') -> good_world w -> good_world w'.
Proof.
  induction ls as [|l ls IH]; intros w w' H F G; cbn [wrun] in H.
  - injection H as <-. exact G.
  - destruct (wstep meta_enc meta_dec d w l) as [w1| |] eqn:E; try discriminate.
    apply (IH w1 w' H F). destruct (run_log (l :: ls) w w') as [e Ee].
    { cbn [wrun]. rewrite E. exact H. }
    rewrite Ee in F. apply log_fits_prefix in F.
    pose proof (step_good w l F G) as S. rewrite E in S. exact S.
Qed.

(** Every replica is where a state machine that never stops was after as many entries,
    and has answered what that one answers. *)
Theorem replicas_agree n ls w :
  wrun meta_enc meta_dec d (world_new d n) ls = WOk w -> log_fits d (w_log w) ->
  (forall j r, w_reps w !! j = Some r -> rp_idx r <= len (w_log w) /\
     log_state (sm_new d) (take (N.to_nat (rp_idx r)) (w_log w)) = ADone (rp_sm r)) /\
  (forall j i x, (j, i, x) ∈ w_answers w -> log_answer d (w_log w) i x).
Proof.
  intros H F. destruct (run_good _ _ _ H F (good_new n)) as [A B]. split; [|exact B].
  intros j r Hj. rewrite Forall_forall in A. destruct (A r (elem_of_list_lookup_2 _ _ _ Hj)) as [C [D _]]. tauto.
Qed.

(** Nothing that can happen makes a replica exit. *)
Theorem replicas_survive n ls w l :
  wrun meta_enc meta_dec d (world_new d n) ls = WOk w -> log_fits d (w_log w) ->
  wstep meta_enc meta_dec d w l <> WExit.
Proof.
  intros H F E. pose proof (step_good w l F (run_good _ _ _ H F (good_new n))) as S. rewrite E in S. exact S.
Qed.

(** However far a snapshot writer got when the process died, the replica comes back at the
    new snapshot if it was renamed, and otherwise at the latest one there was. *)
Theorem snapshot_crash n ls w j r p :
  wrun meta_enc meta_dec d (world_new d n) ls = WOk w -> log_fits d (w_log w) ->
  w_reps w !! j = Some r -> rp_idx r <> 0 -> p <> PFinished ->
  exists w' r', wstep meta_enc meta_dec d w (WSnapshot j p) = WOk w' /\ w_reps w' !! j = Some r' /\
    log_state (sm_new d) (take (N.to_nat (rp_idx r')) (w_log w)) = ADone (rp_sm r') /\
    (match p with
     | PRenamed _ => rp_idx r <= rp_idx r'
     | _ => forall p', p' ∈ sd_files (rp_dir r) -> fst p' <= rp_idx r'
     end).
Proof.
  intros H F Hj Hz Hp. pose proof (run_good _ _ _ H F (good_new n)) as G.
  assert (R : good_rep (w_log w) r).
  { destruct G as [GA _]. rewrite Forall_forall in GA. apply GA. eapply elem_of_list_lookup_2. exact Hj. }
  destruct R as [R1 [R2 R3]].
  assert (D : good_dir (w_log w) (write_snapshot (rp_dir r) (rp_idx r)
                (enc c_snapshot (meta_enc (rp_idx r), rp_sm r)) p)).
  { apply good_write; [exact R3|]. split; [cbn [fst]; lia|]. split; [exact R1|].
    exists (rp_sm r). split; [exact R2|reflexivity]. }
  destruct (start_good _ _ F D) as [s [i [E [[S1 [S2 S3]] S4]]]].
  cbn [wstep]. rewrite Hj. destruct (N.eqb_spec (rp_idx r) 0); [contradiction|].
  assert (Hr : restart meta_dec d w j (write_snapshot (rp_dir r) (rp_idx r)
                (enc c_snapshot (meta_enc (rp_idx r), rp_sm r)) p) =
     WOk (with_rep w j (Replica s i (write_snapshot (rp_dir r) (rp_idx r)
                (enc c_snapshot (meta_enc (rp_idx r), rp_sm r)) p)))).
  { unfold restart. rewrite E. reflexivity. }
  eexists. eexists. split; [destruct p; [exact Hr|exact Hr|exact Hr|contradiction]|].
  split; [apply list_lookup_insert; eapply lookup_lt_Some; exact Hj|].
  split; [exact S2|]. cbn [rp_idx].
  destruct p as [|m|gone|]; cbn [write_snapshot sd_files] in S4; [exact S4|exact S4| |contradiction].
  apply (S4 (rp_idx r, enc c_snapshot (meta_enc (rp_idx r), rp_sm r))).
  apply elem_of_list_In, List.filter_In. split; [left; reflexivity|].
  cbn [fst]. rewrite N.ltb_irrefl. reflexivity.
Qed.

(** ** Snapshots last *)
Definition kept (i : N) (sd : snpdir) : Prop := exists p, p ∈ sd_files sd /\ i <= fst p.
Lemma kept_rename i sd k data : kept i sd -> kept i (sd_rename sd k data).
Proof.
  intros [p [Hp Hi]]. destruct (N.eq_dec (fst p) k) as [<-|Hk].
  - exists (fst p, data). split; [left|exact Hi].
  - exists p. split; [|exact Hi]. unfold sd_rename. cbn [sd_files]. right. apply elem_of_list_In, List.filter_In.
    split; [apply elem_of_list_In, Hp|]. apply negb_true_iff, N.eqb_neq, Hk.
Qed.
Lemma kept_sub i sd k data f : kept i (sd_rename sd k data) ->
  (forall p, k <= fst p -> f p = true) ->
  exists p, p ∈ List.filter f (sd_files (sd_rename sd k data)) /\ i <= fst p.
Proof.
  intros [p [Hp Hi]] F. destruct (N.lt_ge_cases (fst p) k).
  - exists (k, data). split; [|cbn [fst]; lia]. apply elem_of_list_In, List.filter_In. split; [left; reflexivity|].
    apply F. cbn [fst]. lia.
  - exists p. split; [|exact Hi]. apply elem_of_list_In, List.filter_In. split; [apply elem_of_list_In, Hp|]. now apply F.
Qed.
Lemma kept_write i sd k data p : kept i sd -> kept i (write_snapshot sd k data p).
Proof.
  intros K. destruct p as [|n|gone|]; cbn [write_snapshot]; [exact K|exact K| |];
    (apply kept_sub; [now apply kept_rename|]); intros q Hq;
    rewrite (proj2 (N.ltb_ge _ _) Hq); reflexivity.
Qed.
Lemma kept_save i sd k data p : kept i sd -> kept i (save_snapshot sd k data p).
Proof. intros K. destruct p; cbn [save_snapshot]; [exact K|exact K|now apply kept_rename..]. Qed.
Lemma kept_new sd k data p : (exists gone, p = PRenamed gone) \/ p = PFinished -> kept k (write_snapshot sd k data p).
Proof.
  assert (K : kept k (sd_rename sd k data)) by (exists (k, data); split; [left|cbn [fst]; lia]).
  intros [[gone ->]| ->]; (apply kept_sub; [exact K|]); intros q Hq; rewrite (proj2 (N.ltb_ge _ _) Hq); reflexivity.
Qed.
Definition kept_at (i : N) (w : world) (j : nat) : Prop := exists r, w_reps w !! j = Some r /\ kept i (rp_dir r).
Lemma kept_at_insert i w j k r log a : kept_at i w j -> (j = k -> kept i (rp_dir r)) ->
  kept_at i (World log (<[k := r]> (w_reps w)) a) j.
Proof.
  intros (r0 & E & K) H. unfold kept_at. cbn [w_reps]. destruct (decide (j = k)) as [<-|N].
  - exists r. split; [|auto]. apply list_lookup_insert. eapply lookup_lt_Some, E.
  - exists r0. split; [|exact K]. rewrite list_lookup_insert_ne by congruence. exact E.
Qed.
Lemma kept_restart i w j k sd w' : kept_at i w j -> (j = k -> kept i sd) ->
  restart meta_dec d w k sd = WOk w' -> kept_at i w' j.
Proof.
  unfold restart. intros K H E. destruct (sm_start meta_dec d sd) as [[s n]|]; [|discriminate E]. injection E as <-.
  now apply kept_at_insert.
Qed.
Lemma kept_step i w j l w' : kept_at i w j -> wstep meta_enc meta_dec d w l = WOk w' -> kept_at i w' j.
Proof.
  intros K E. assert (KJ : forall r, w_reps w !! j = Some r -> kept i (rp_dir r)).
  { intros r Hr. destruct K as (r0 & E0 & K). congruence. }
  destruct l as [e|k|k p|k m x p|k]; cbn [wstep] in E.
  - injection E as <-. exact K.
  - destruct (w_reps w !! k) as [r|] eqn:Hk; [|discriminate E]. destruct (w_log w !! N.to_nat (rp_idx r)) as [[q|]|]; [| |discriminate E].
    + destruct (sm_commit (rp_sm r) q) as [[s x]| |]; try discriminate E. injection E as <-. apply kept_at_insert; [exact K|].
      intros <-. exact (KJ r Hk).
    + injection E as <-. apply kept_at_insert; [exact K|]. intros <-. exact (KJ r Hk).
  - destruct (w_reps w !! k) as [r|] eqn:Hk; [|discriminate E]. destruct (rp_idx r =? 0); [discriminate E|].
    assert (KW : j = k -> forall data, kept i (write_snapshot (rp_dir r) (rp_idx r) data p)).
    { intros <- data. apply kept_write. now apply KJ. }
    destruct p; try (eapply kept_restart; [exact K| |exact E]; intros Q; now apply KW).
    injection E as <-. apply kept_at_insert; [exact K|]. intros Q. now apply KW.
  - destruct (w_reps w !! k) as [r|] eqn:Hk; [|discriminate E]. destruct (w_reps w !! m) as [r2|]; [|discriminate E].
    destruct (sd_read (rp_dir r2) x) as [data|]; [|discriminate E].
    assert (KW : j = k -> kept i (save_snapshot (rp_dir r) x data p)).
    { intros <-. apply kept_save. now apply KJ. }
    destruct p; try (eapply kept_restart; [exact K| |exact E]; exact KW).
    destruct (read_snapshot meta_dec _ x) as [|? s|]; try discriminate E. injection E as <-.
    apply kept_at_insert; [exact K|exact KW].
  - destruct (w_reps w !! k) as [r|] eqn:Hk; [|discriminate E]. eapply kept_restart; [exact K| |exact E].
    intros <-. exact (KJ r Hk).
Qed.
Lemma kept_run i j ls : forall w w', kept_at i w j -> wrun meta_enc meta_dec d w ls = WOk w' -> kept_at i w' j.
Proof.
  induction ls as [|l ls IH]; intros w w' K E; cbn [wrun] in E; [now injection E as <-|].
  destruct (wstep meta_enc meta_dec d w l) as [w1| |] eqn:S; try discriminate E. eapply IH; [|exact E]. eapply kept_step; eauto.
Qed.
Theorem snapshots_last n ls w l j w1 r1 ls2 w2 :
  wrun meta_enc meta_dec d (world_new d n) ls = WOk w ->
  l = WSnapshot j PFinished \/ (exists k i, l = WInstall j k i PFinished) ->
  wstep meta_enc meta_dec d w l = WOk w1 -> w_reps w1 !! j = Some r1 ->
  wrun meta_enc meta_dec d w1 ls2 = WOk w2 -> log_fits d (w_log w2) ->
  exists w3 r3, wstep meta_enc meta_dec d w2 (WCrash j) = WOk w3 /\ w_reps w3 !! j = Some r3 /\
    rp_idx r1 <= rp_idx r3 /\
    log_state (sm_new d) (take (N.to_nat (rp_idx r3)) (w_log w2)) = ADone (rp_sm r3).
Proof.
  intros H L S R1 H2 F.
  assert (K1 : kept_at (rp_idx r1) w1 j).
  { exists r1. split; [exact R1|]. destruct L as [-> | (k & i & ->)]; cbn [wstep] in S.
    - destruct (w_reps w !! j) as [r|] eqn:Hj; [|discriminate S]. destruct (rp_idx r =? 0); [discriminate S|].
      injection S as <-. cbn [with_rep w_reps] in R1. rewrite list_lookup_insert in R1 by (eapply lookup_lt_Some, Hj).
      injection R1 as <-.
      exact (kept_new (rp_dir r) (rp_idx r) (enc c_snapshot (meta_enc (rp_idx r), rp_sm r)) PFinished (or_intror eq_refl)).
    - destruct (w_reps w !! j) as [r|] eqn:Hj; [|discriminate S]. destruct (w_reps w !! k) as [r2|]; [|discriminate S].
      destruct (sd_read (rp_dir r2) i) as [data|]; [|discriminate S].
      destruct (read_snapshot meta_dec (save_snapshot (rp_dir r) i data PFinished) i) as [|? s|]; try discriminate S.
      injection S as <-. cbn [with_rep w_reps] in R1. rewrite list_lookup_insert in R1 by (eapply lookup_lt_Some, Hj).
      injection R1 as <-. cbn [rp_dir rp_idx save_snapshot]. exists (i, data). split; [left|cbn [fst]; lia]. }
  destruct (kept_run _ _ _ _ _ K1 H2) as (r & Hr & p & Hp & Hi).
  assert (G : good_world w2).
  { apply (run_good (ls ++ l :: ls2) (world_new d n) w2); [|exact F|apply good_new].
    clear - H S H2. revert H. generalize (world_new d n). induction ls as [|l0 ls IH]; intros w0 H; cbn [wrun app] in *.
    - injection H as ->. now rewrite S.
    - destruct (wstep meta_enc meta_dec d w0 l0); [now apply IH|discriminate H..]. }
  destruct G as [GA _]. rewrite Forall_forall in GA. pose proof (GA r (elem_of_list_lookup_2 _ _ _ Hr)) as [R2 [R3 R4]].
  destruct (start_good _ _ F R4) as [s [i [E [[S1 [S2 S3]] S4]]]].
  cbn [wstep]. rewrite Hr. unfold restart. rewrite E. eexists. eexists. split; [reflexivity|].
  split; [apply list_lookup_insert; eapply lookup_lt_Some, Hr|]. split; [|exact S2].
  cbn [rp_idx]. etransitivity; [exact Hi|]. now apply S4.
Qed.
End replicas.
