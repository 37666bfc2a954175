(** Conservation of money over histories of transactions. *)
From Coq Require Import NArith List Bool Lia Permutation.
From stdpp Require Import base decidable list gmap.
From Verif Require Import Base CodecModel CodecProofs TxModel TxSpec TxProofs ValidationModel ValidationSpec
  AtomizerSpec SentinelSpec SupplySpec.
Import ListNotations.
Open Scope N_scope.

(** A finite family of facts that hold or give a collision. *)
Lemma finite_or {A} (C : Prop) (Q : A -> Prop) (l : list A) :
  (forall a, a ∈ l -> Q a \/ C) -> (forall a, a ∈ l -> Q a) \/ C.
Proof.
  induction l as [|a l IH]; intros H.
  - left. intros a Ha. now apply elem_of_nil in Ha.
  - destruct (H a (elem_of_list_here _ _)) as [Qa|]; [|now right].
    destruct IH as [Ql|]; [|left|now right].
    + intros b Hb. apply H. now apply elem_of_list_further.
    + intros b Hb. apply elem_of_cons in Hb as [->|Hb]; auto.
Qed.
Lemma finite_or2 {A} (C : Prop) (Q : A -> A -> Prop) (l : list A) :
  (forall a b, a ∈ l -> b ∈ l -> Q a b \/ C) -> (forall a b, a ∈ l -> b ∈ l -> Q a b) \/ C.
Proof.
  intros H. destruct (finite_or C (fun a => forall b, b ∈ l -> Q a b) l) as [F|]; [|left; auto|now right].
  intros a Ha. apply finite_or. intros b Hb. now apply H.
Qed.

Lemma nth_error_lookup {A} (l : list A) i : nth_error l i = l !! i.
Proof. revert i. induction l as [|a l IH]; intros [|i]; cbn; auto. Qed.

(** Sums. *)
Lemma total_app a b : total (a ++ b) = total a + total b.
Proof. induction a as [|v a IH]; cbn; [reflexivity|rewrite IH; lia]. Qed.
Lemma total_perm a b : Permutation a b -> total a = total b.
Proof. induction 1; cbn; lia. Qed.
Lemma worth_app a b : worth (a ++ b) = worth a + worth b.
Proof. unfold worth. rewrite map_app. apply total_app. Qed.
Lemma worth_perm a b : Permutation a b -> worth a = worth b.
Proof. intros P. unfold worth. apply total_perm. now apply Permutation_map. Qed.
Lemma filter_split (f : input -> bool) l :
  Permutation l (List.filter f l ++ List.filter (fun c => negb (f c)) l).
Proof.
  induction l as [|c l IH]; cbn; [constructor|]. destruct (f c); cbn.
  - now constructor.
  - rewrite <- Permutation_middle. now constructor.
Qed.
(** What is left of the coins made is worth what was made less what was spent. *)
Lemma worth_left made spent : base.NoDup made -> base.NoDup spent -> (forall c, c ∈ spent -> c ∈ made) ->
  worth (List.filter (fun c => negb (bool_decide (c ∈ spent))) made) + worth spent = worth made.
Proof.
  intros NM NS I. rewrite (worth_perm made _ (filter_split (fun c => bool_decide (c ∈ spent)) made)).
  rewrite worth_app, N.add_comm. f_equal. apply worth_perm. apply NoDup_Permutation.
  - exact NS.
  - apply NoDup_ListNoDup, List.NoDup_filter, NoDup_ListNoDup, NM.
  - intros c. rewrite !elem_of_list_In, filter_In, bool_decide_eq_true, <- !elem_of_list_In.
    split; [auto|tauto].
Qed.

Section Supply.
  Variable sha : bytes -> hash.
  Variable pk_parse : N -> bool.
  Variable schnorr : N -> hash -> N -> bool.
  Notation genuine := (genuine sha pk_parse schnorr).
  Notation coins_made := (coins_made sha).
  Notation all_made := (all_made sha).
  Notation circulating := (circulating sha).

  Lemma elem_concat_map {A B} (f : A -> list B) (l : list A) b :
    b ∈ concat (map f l) <-> exists a, a ∈ l /\ b ∈ f a.
  Proof.
    rewrite elem_of_list_In, in_concat. split.
    - intros (k & H1 & H2). apply in_map_iff in H1 as (a & <- & H1). exists a. now rewrite !elem_of_list_In.
    - intros (a & H1 & H2). exists (f a). apply elem_of_list_In in H1, H2. split; [now apply in_map|exact H2].
  Qed.
  Lemma elem_made tx c : c ∈ coins_made tx <->
    exists i o, nth_error (tx_outputs tx) i = Some o /\ c = Input (OutPoint (tx_id sha tx) (N.of_nat i)) o.
  Proof.
    unfold SupplySpec.coins_made. rewrite elem_of_lookup_imap. split.
    - intros (i & o & -> & H). exists i, o. now rewrite nth_error_lookup.
    - intros (i & o & H & ->). rewrite nth_error_lookup in H. eauto.
  Qed.
  Lemma made_nodup tx : base.NoDup (coins_made tx).
  Proof.
    apply NoDup_alt. intros i j c. unfold SupplySpec.coins_made. rewrite !list_lookup_imap.
    destruct (tx_outputs tx !! i); [|discriminate]. destruct (tx_outputs tx !! j); [|discriminate].
    cbn. intros H1 H2. rewrite <- H2 in H1. injection H1 as E _. lia.
  Qed.
  Lemma made_hashes tx : map (input_hash sha) (coins_made tx) = ctx_outputs (to_compact sha tx).
  Proof.
    apply list_eq. intros i. rewrite <- !nth_error_lookup, output_id_correspondence, nth_error_map.
    rewrite input_from_output_spec. unfold SupplySpec.coins_made. rewrite nth_error_lookup, list_lookup_imap.
    rewrite <- nth_error_lookup. destruct (nth_error (tx_outputs tx) i); reflexivity.
  Qed.
  Lemma made_worth tx : worth (coins_made tx) = total (out_values tx).
  Proof.
    unfold worth, SupplySpec.coins_made, out_values. f_equal. apply list_eq. intros i.
    rewrite !list_lookup_fmap, list_lookup_imap. destruct (tx_outputs tx !! i); reflexivity.
  Qed.
  Lemma made_typed tx c : sha_fits sha -> typed_full_tx tx -> c ∈ coins_made tx -> dom c_input c.
  Proof. intros F T H. apply elem_made in H as (i & o & H & ->). apply dom_input_of_output; auto. apply F. Qed.
  Lemma input_typed tx c : typed_full_tx tx -> c ∈ tx_inputs tx -> dom c_input c.
  Proof.
    intros T H. destruct T as [[[_ D] _] _]. cbn in D. rewrite List.Forall_forall in D.
    apply D. now apply elem_of_list_In.
  Qed.

  (** ** No two coins with one ID, no two transactions with one ID *)
  Definition coins_apart (h : list full_tx) : Prop := forall a b,
    a ∈ all_made h ++ all_spent h -> b ∈ all_made h ++ all_spent h -> input_hash sha a = input_hash sha b -> a = b.
  Definition txs_apart (h : list full_tx) : Prop := forall a b, a ∈ h -> b ∈ h ->
    tx_id sha a = tx_id sha b -> tx_inputs a = tx_inputs b /\ tx_outputs a = tx_outputs b.

  Lemma all_typed h c : sha_fits sha -> Forall typed_full_tx h -> c ∈ all_made h ++ all_spent h -> dom c_input c.
  Proof.
    intros F T H. rewrite Forall_forall in T. apply elem_of_app in H as [H|H];
      apply elem_concat_map in H as (tx & H1 & H2); [eapply made_typed|eapply input_typed]; eauto.
  Qed.
  Lemma apart h : sha_fits sha -> Forall typed_full_tx h -> (coins_apart h /\ txs_apart h) \/ collision sha.
  Proof.
    intros F T. destruct (finite_or2 (collision sha) (fun a b => input_hash sha a = input_hash sha b -> a = b)
      (all_made h ++ all_spent h)) as [C|]; [| |now right].
    { intros a b Ha Hb. destruct (decide (input_hash sha a = input_hash sha b)) as [E|E]; [|now left].
      destruct (input_id_injective sha a b) as [->|]; auto; eapply all_typed; eauto. }
    destruct (finite_or2 (collision sha) (fun a b => tx_id sha a = tx_id sha b ->
      tx_inputs a = tx_inputs b /\ tx_outputs a = tx_outputs b) h) as [D|]; [| |now right].
    { rewrite Forall_forall in T. intros a b Ha Hb.
      destruct (decide (tx_id sha a = tx_id sha b)) as [E|E]; [|now left].
      destruct (tx_id_commits sha a b) as [E'|]; auto. }
    left. split; [exact C|exact D].
  Qed.

  (** ** One more transaction *)
  Lemma made_snoc h tx : all_made (h ++ [tx]) = all_made h ++ coins_made tx.
  Proof. unfold SupplySpec.all_made. rewrite map_app, concat_app. cbn. now rewrite app_nil_r. Qed.
  Lemma spent_snoc h tx : all_spent (h ++ [tx]) = all_spent h ++ tx_inputs tx.
  Proof. unfold all_spent. rewrite map_app, concat_app. cbn. now rewrite app_nil_r. Qed.
  Lemma issued_snoc h tx : issued (h ++ [tx]) = issued h + (if issues tx then total (out_values tx) else 0).
  Proof.
    unfold issued. rewrite List.filter_app, map_app, concat_app, total_app. f_equal. cbn [List.filter].
    destruct (issues tx); cbn; [now rewrite app_nil_r|reflexivity].
  Qed.
  Lemma apart_prefix h k : coins_apart (h ++ k) -> txs_apart (h ++ k) -> coins_apart h /\ txs_apart h.
  Proof.
    intros C T. split.
    - intros a b Ha Hb. apply C; unfold SupplySpec.all_made, all_spent in *; rewrite !map_app, !concat_app;
        [apply elem_of_app in Ha as [|]|apply elem_of_app in Hb as [|]]; rewrite !elem_of_app; auto.
    - intros a b Ha Hb. apply T; apply elem_of_app; now left.
  Qed.
  Lemma nds_prefix l k : no_double_spend (l ++ k) -> no_double_spend l.
  Proof.
    intros H q tq x Hq Hx. pose proof (lookup_lt_Some _ _ _ Hq) as L.
    destruct (H q tq x) as (r & tr & A & B & D & E); [now apply lookup_app_l_Some|exact Hx|].
    exists r, tr. rewrite lookup_app_l in A by lia. split; [exact A|]. split; [exact B|]. split; [exact D|].
    intros p tp Hp Hr. apply (E p tp); [now apply lookup_app_l_Some|exact Hr].
  Qed.
  Lemma once_prefix l k : issued_once (l ++ k) -> issued_once l.
  Proof. intros H p q tp tq Hp Hq. apply H; now apply lookup_app_l_Some. Qed.
  Lemma stands_snoc h tx l : stands_for sha (h ++ [tx]) l ->
    exists l' t, l = l' ++ [t] /\ stands_for sha h l' /\ compact_of sha tx t.
  Proof.
    intros H. apply Forall2_app_inv_l in H as (l' & lt & H1 & H2 & ->).
    apply Forall2_cons_inv_l in H2 as (t & [|] & H2 & H3 & ->); [|inversion H3]. eauto.
  Qed.
  Lemma stands_lookup h l p t : stands_for sha h l -> l !! p = Some t -> exists tx, h !! p = Some tx /\ compact_of sha tx t.
  Proof. intros H E. destruct (Forall2_lookup_r _ _ _ _ _ H E) as (tx & ? & ?). eauto. Qed.
  Lemma stands_lookup_l h l p tx : stands_for sha h l -> h !! p = Some tx -> exists t, l !! p = Some t /\ compact_of sha tx t.
  Proof. intros H E. destruct (Forall2_lookup_l _ _ _ _ _ H E) as (t & ? & ?). eauto. Qed.

  Record books (h : list full_tx) : Prop := {
    bk_made : base.NoDup (all_made h);
    bk_spent : base.NoDup (all_spent h);
    bk_incl : forall c, c ∈ all_spent h -> c ∈ all_made h;
    bk_sum : worth (all_made h) = worth (all_spent h) + issued h }.

  Lemma valid_inputs_nodup tx : valid_tx sha pk_parse schnorr tx -> base.NoDup (tx_inputs tx).
  Proof.
    intros V. apply NoDup_alt. intros i j c Hi Hj. rewrite <- !nth_error_lookup in *.
    eapply (v_distinct _ _ _ _ V); eauto.
  Qed.

  (** A coin that a later transaction spends was made before and is not spent. *)
  Lemma spends_circulating h tx l t c : books h -> coins_apart (h ++ [tx]) ->
    stands_for sha h l -> compact_of sha tx t -> no_double_spend (l ++ [t]) ->
    c ∈ tx_inputs tx -> c ∈ all_made h /\ c ∉ all_spent h.
  Proof.
    intros B CA S (_ & CI & _) ND Hc.
    assert (HL : length h = length l) by (eapply Forall2_length; exact S).
    assert (Hspent : forall p txp, h !! p = Some txp -> forall c', c' ∈ tx_inputs txp -> c' ∈ all_made (h ++ [tx]) ++ all_spent (h ++ [tx])).
    { intros p txp Hp c' Hc'. apply elem_of_app. right. apply elem_concat_map. exists txp. split; [|exact Hc'].
      apply elem_of_app. left. eapply elem_of_list_lookup_2, Hp. }
    assert (Hmade : forall p txp, h !! p = Some txp -> forall c', c' ∈ coins_made txp -> c' ∈ all_made (h ++ [tx]) ++ all_spent (h ++ [tx])).
    { intros p txp Hp c' Hc'. apply elem_of_app. left. apply elem_concat_map. exists txp. split; [|exact Hc'].
      apply elem_of_app. left. eapply elem_of_list_lookup_2, Hp. }
    assert (Hself : c ∈ all_made (h ++ [tx]) ++ all_spent (h ++ [tx])).
    { apply elem_of_app. right. apply elem_concat_map. exists tx. split; [apply elem_of_app; right; now apply elem_of_list_singleton|exact Hc]. }
    (* positions at which a coin of the history is made *)
    assert (Cre : forall q tq x c', (l ++ [t]) !! q = Some tq -> x ∈ ctx_inputs tq -> x = input_hash sha c' ->
      c' ∈ all_made (h ++ [tx]) ++ all_spent (h ++ [tx]) ->
      exists r txr, (r < q)%nat /\ h !! r = Some txr /\ c' ∈ coins_made txr /\
        forall p txp, h !! p = Some txp -> (r <= p < q)%nat -> c' ∉ tx_inputs txp).
    { intros q tq x c' Hq Hx Ex Hc'. destruct (ND q tq x Hq Hx) as (r & tr & A & Lr & D & E).
      pose proof (lookup_lt_Some _ _ _ Hq) as Lq. rewrite app_length in Lq. cbn in Lq.
      rewrite lookup_app_l in A by lia. destruct (stands_lookup _ _ _ _ S A) as (txr & Hr & (_ & _ & CO)).
      exists r, txr. split; [exact Lr|]. split; [exact Hr|]. split.
      - rewrite CO, <- made_hashes in D. apply elem_of_list_fmap in D as (c2 & Ec & H2).
        assert (c2 = c') as <-; [|exact H2]. apply CA; [eapply Hmade; eauto|exact Hc'|congruence].
      - intros p txp Hp Rp Hi. destruct (stands_lookup_l _ _ _ _ S Hp) as (tp & Htp & (_ & CI' & _)).
        apply (E p tp); [now apply lookup_app_l_Some|exact Rp|]. rewrite CI'. cbn. rewrite Ex.
        apply elem_of_list_fmap. eauto. }
    destruct (Cre (length l) t (input_hash sha c) c) as (r & txr & Lr & Hr & Mr & Nr).
    { apply list_lookup_middle. reflexivity. }
    { rewrite CI. cbn. apply elem_of_list_fmap. eauto. } { reflexivity. } { exact Hself. }
    split; [apply elem_concat_map; exists txr; split; [eapply elem_of_list_lookup_2, Hr|exact Mr]|].
    intros Hs. apply elem_concat_map in Hs as (txp & Hp & Hcp). apply elem_of_list_lookup in Hp as (p & Hp).
    pose proof (lookup_lt_Some _ _ _ Hp) as Lp.
    destruct (Nat.le_gt_cases r p) as [Rp|Rp]; [apply (Nr p txp Hp); [lia|exact Hcp]|].
    destruct (stands_lookup_l _ _ _ _ S Hp) as (tp & Htp & (_ & CI' & _)).
    destruct (Cre p tp (input_hash sha c) c) as (r' & txr' & Lr' & Hr' & Mr' & _).
    { now apply lookup_app_l_Some. } { rewrite CI'. cbn. apply elem_of_list_fmap. eauto. } { reflexivity. } { exact Hself. }
    (* made twice *)
    pose proof (bk_made _ B) as NM. clear - NM Hr Hr' Mr Mr' Rp Lr'.
    assert (r' < r)%nat by lia. rewrite <- (take_drop r h) in NM.
    unfold SupplySpec.all_made in NM. rewrite map_app, concat_app in NM. apply NoDup_app in NM as (_ & NM & _).
    apply (NM c).
    - apply elem_concat_map. exists txr'. split; [|exact Mr']. apply elem_of_list_lookup. exists r'.
      rewrite lookup_take by lia. exact Hr'.
    - apply elem_concat_map. exists txr. split; [|exact Mr]. apply elem_of_list_lookup. exists 0%nat.
      rewrite lookup_drop, Nat.add_0_r. exact Hr.
  Qed.

  Lemma issues_compact tx t : compact_of sha tx t -> (ctx_inputs t = [] <-> tx_inputs tx = []).
  Proof.
    intros (_ & CI & _). rewrite CI. cbn. destruct (tx_inputs tx); cbn; split; intros H; try discriminate H; reflexivity.
  Qed.

  (** New coins are new. *)
  Lemma makes_new h tx l t c : books h -> genuine tx -> coins_apart (h ++ [tx]) -> txs_apart (h ++ [tx]) ->
    stands_for sha h l -> compact_of sha tx t -> no_double_spend (l ++ [t]) -> issued_once (l ++ [t]) ->
    c ∈ coins_made tx -> c ∉ all_made h.
  Proof.
    intros B G CA TA S CO ND OI Hc Hm. apply elem_concat_map in Hm as (tx' & Hin & Hc').
    assert (Eid : tx_id sha tx = tx_id sha tx').
    { apply elem_made in Hc as (i & o & _ & ->). apply elem_made in Hc' as (j & o' & _ & E). now injection E. }
    destruct (TA tx tx') as [EI _]; [apply elem_of_app; right; now apply elem_of_list_singleton|apply elem_of_app; now left|exact Eid|].
    destruct (tx_inputs tx) as [|i r] eqn:Ei.
    - apply elem_of_list_lookup in Hin as (p & Hp). destruct (stands_lookup_l _ _ _ _ S Hp) as (tp & Htp & CO').
      pose proof (lookup_lt_Some _ _ _ Htp) as Lp.
      assert (p = length l); [|lia]. apply (OI p (length l) tp t).
      + now apply lookup_app_l_Some.
      + now apply list_lookup_middle.
      + now apply (issues_compact _ _ CO').
      + now apply (issues_compact _ _ CO).
      + destruct CO as (-> & _), CO' as (-> & _). cbn. now symmetry.
    - destruct (spends_circulating h tx l t i B CA S CO ND) as [_ NS]; [rewrite Ei; left|].
      apply NS. apply elem_concat_map. exists tx'. split; [exact Hin|]. rewrite <- EI. left.
  Qed.

  Lemma books_ok h : Forall genuine h -> coins_apart h -> txs_apart h ->
    forall l, stands_for sha h l -> no_double_spend l -> issued_once l -> books h.
  Proof.
    induction h as [|tx h IH] using rev_ind; intros G CA TA l S ND OI.
    - constructor; cbn; try constructor; try (intros c H; exact H).
    - apply Forall_app in G as [G Gt]. apply Forall_cons in Gt as [Gt _].
      destruct (stands_snoc _ _ _ S) as (l' & t & -> & S' & CO).
      destruct (apart_prefix _ _ CA TA) as [CA' TA'].
      pose proof (IH G CA' TA' l' S' (nds_prefix _ _ ND) (once_prefix _ _ OI)) as B.
      assert (SP : forall c, c ∈ tx_inputs tx -> c ∈ all_made h /\ c ∉ all_spent h)
        by (intros c Hc; eapply spends_circulating; eauto).
      constructor; rewrite ?made_snoc, ?spent_snoc.
      + apply NoDup_app. split; [apply B|]. split; [|apply made_nodup].
        intros c H1 H2. eapply makes_new; eauto.
      + apply NoDup_app. split; [apply B|]. split.
        * intros c H1 H2. now apply (SP c H2).
        * destruct Gt as [_ [V|E]]; [now apply valid_inputs_nodup|rewrite E; constructor].
      + intros c H. apply elem_of_app. left. apply elem_of_app in H as [H|H]; [now apply (bk_incl _ B)|now apply SP].
      + rewrite !worth_app, issued_snoc, made_worth, (bk_sum _ B).
        assert (worth (tx_inputs tx) = total (in_values tx)) as -> by reflexivity.
        destruct Gt as [_ [V|E]].
        * rewrite (v_balance _ _ _ _ V). unfold issues. pose proof (v_inputs _ _ _ _ V).
          destruct (tx_inputs tx); [congruence|lia].
        * unfold issues, in_values. rewrite E. cbn. lia.
  Qed.

  Lemma circulating_spec h c : c ∈ circulating h <-> c ∈ all_made h /\ c ∉ all_spent h.
  Proof.
    unfold SupplySpec.circulating. rewrite elem_of_list_In, filter_In, negb_true_iff, bool_decide_eq_false, <- elem_of_list_In.
    reflexivity.
  Qed.

  (** The unspent IDs are those of the circulating coins. *)
  Lemma utxo_backed h : Forall genuine h -> coins_apart h -> txs_apart h ->
    forall l, stands_for sha h l -> no_double_spend l -> issued_once l ->
    forall x, x ∈ utxo l <-> x ∈ map (input_hash sha) (circulating h).
  Proof.
    induction h as [|tx h IH] using rev_ind; intros G CA TA l S ND OI x.
    - inversion S; subst. cbn. unfold utxo. cbn. split; intros H; [now apply elem_of_empty in H|now apply elem_of_nil in H].
    - pose proof (books_ok _ G CA TA l S ND OI) as B'.
      apply Forall_app in G as [G Gt]. apply Forall_cons in Gt as [Gt _].
      destruct (stands_snoc _ _ _ S) as (l' & t & -> & S' & CO).
      destruct (apart_prefix _ _ CA TA) as [CA' TA'].
      pose proof (IH G CA' TA' l' S' (nds_prefix _ _ ND) (once_prefix _ _ OI)) as IHx.
      pose proof (books_ok h G CA' TA' l' S' (nds_prefix _ _ ND) (once_prefix _ _ OI)) as B.
      assert (HM : forall c, c ∈ all_made h \/ c ∈ coins_made tx -> c ∈ all_made (h ++ [tx]) ++ all_spent (h ++ [tx])).
      { intros c Hc. rewrite made_snoc, !elem_of_app. tauto. }
      assert (HS : forall c, c ∈ tx_inputs tx -> c ∈ all_made (h ++ [tx]) ++ all_spent (h ++ [tx])).
      { intros c Hc. rewrite spent_snoc, !elem_of_app. tauto. }
      unfold utxo. rewrite fold_left_app. cbn [fold_left]. fold (utxo l'). unfold apply_tx.
      rewrite elem_of_difference, elem_of_union, !elem_of_list_to_set, IHx.
      destruct CO as (Cid & CI & COO). rewrite CI, COO, <- made_hashes. cbn [to_compact ctx_inputs].
      split.
      + intros [H1 H2]. assert (exists c, x = input_hash sha c /\ (c ∈ circulating h \/ c ∈ coins_made tx)) as (c & -> & Hc).
        { destruct H1 as [H1|H1]; apply elem_of_list_fmap in H1 as (c & -> & H1); eauto. }
        apply elem_of_list_fmap. exists c. split; [reflexivity|]. apply circulating_spec.
        assert (NI : c ∉ tx_inputs tx) by (intros HI; apply H2, elem_of_list_fmap; eauto).
        rewrite made_snoc, spent_snoc, !elem_of_app. destruct Hc as [Hc|Hc].
        * apply circulating_spec in Hc. tauto.
        * split; [tauto|]. intros [H|H]; [|tauto].
          apply (bk_incl _ B) in H. revert H. refine (makes_new h tx l' t c B Gt CA TA S' _ ND OI Hc). repeat split; assumption.
      + intros H. apply elem_of_list_fmap in H as (c & -> & H). apply circulating_spec in H as [HA HB].
        rewrite made_snoc, elem_of_app in HA. rewrite spent_snoc, elem_of_app in HB. split.
        * destruct HA as [HA|HA]; [left|right]; apply elem_of_list_fmap; exists c; (split; [reflexivity|]); [|exact HA].
          apply circulating_spec. tauto.
        * intros HI. apply elem_of_list_fmap in HI as (c' & E & HI).
          assert (c = c') as <-; [|tauto]. apply CA; auto.
  Qed.

  Theorem money_conserved h l : sha_fits sha -> Forall genuine h -> stands_for sha h l ->
    no_double_spend l -> issued_once l ->
    (backed_by sha (utxo l) (circulating h) /\ worth (circulating h) = issued h) \/ collision sha.
  Proof.
    intros F G S ND OI. assert (T : Forall typed_full_tx h) by (eapply Forall_impl; [exact G|]; now intros ? [? _]).
    destruct (apart h F T) as [[CA TA]|]; [|now right]. left.
    pose proof (books_ok h G CA TA l S ND OI) as B. split; [split|].
    - apply NoDup_fmap_2_strong.
      + intros a b Ha Hb. apply circulating_spec in Ha as [Ha _], Hb as [Hb _].
        apply CA; apply elem_of_app; now left.
      + apply NoDup_ListNoDup, List.NoDup_filter, NoDup_ListNoDup, B.
    - now apply utxo_backed.
    - pose proof (worth_left _ _ (bk_made _ B) (bk_spent _ B) (bk_incl _ B)) as W.
      unfold SupplySpec.circulating. pose proof (bk_sum _ B). lia.
  Qed.
End Supply.
