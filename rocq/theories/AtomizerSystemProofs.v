(** The atomizer architecture never confirms a double spend. *)
From Coq Require Import NArith Lia List Bool.
From stdpp Require Import base decidable list gmap.
From Verif Require Import Base CodecModel TxModel MsgModel AtomizerModel AtomizerShardModel
  AtomizerSystemModel AtomizerSpec AtomizerShardSpec AtomizerProofs AtomizerSmProofs AtomizerShardProofs AtomizerCalls.
Import ListNotations.
Open Scope N_scope.

(** ** The unspent set along a sequence of transactions *)

Lemma utxo_survives l2 : forall l1 x,
  x ∈ utxo l1 -> (forall t, t ∈ l2 -> x ∉ ctx_inputs t) -> x ∈ utxo (l1 ++ l2).
Proof.
  induction l2 as [|t l IH] using rev_ind; intros l1 x Hx Hl.
  - rewrite app_nil_r. exact Hx.
  - rewrite app_assoc, utxo_snoc. apply apply_tx_elem. split.
    + left. apply IH; [exact Hx|]. intros u Hu. apply Hl. apply elem_of_app. left. exact Hu.
    + apply Hl. apply elem_of_app. right. apply elem_of_list_here.
Qed.

Definition ledger_ok (l : list compact_tx) : Prop :=
  forall q tq x, l !! q = Some tq -> x ∈ ctx_inputs tq -> x ∈ utxo (take q l).

Lemma ledger_ok_snoc l t :
  ledger_ok l -> (forall x, x ∈ ctx_inputs t -> x ∈ utxo l) -> ledger_ok (l ++ [t]).
Proof.
  intros H Ht q tq x Hq Hx. apply lookup_app_Some in Hq. destruct Hq as [Hq|[Hq Hq2]].
  - rewrite take_app_le by (apply lookup_lt_Some in Hq; lia). exact (H q tq x Hq Hx).
  - apply list_lookup_singleton_Some in Hq2. destruct Hq2 as [Hz <-].
    assert (q = length l) by lia. subst q. rewrite take_app. apply Ht. exact Hx.
Qed.

Lemma utxo_created l x : x ∈ utxo l ->
  exists r tr, l !! r = Some tr /\ x ∈ ctx_outputs tr /\
    forall p tp, l !! p = Some tp -> (r <= p)%nat -> x ∉ ctx_inputs tp.
Proof.
  induction l as [|t l IH] using rev_ind; intro H.
  - unfold utxo in H. cbn in H. apply elem_of_empty in H. contradiction.
  - rewrite utxo_snoc in H. apply apply_tx_elem in H. destruct H as [[H|H] Hn].
    + destruct (IH H) as [r [tr [H1 [H2 H3]]]]. exists r, tr. split; [|split; [exact H2|]].
      * rewrite lookup_app_l by (eapply lookup_lt_Some; exact H1). exact H1.
      * intros p tp Hp Hrp. apply lookup_app_Some in Hp. destruct Hp as [Hp|[_ Hp]].
        -- exact (H3 p tp Hp Hrp).
        -- apply list_lookup_singleton_Some in Hp. destruct Hp as [_ <-]. exact Hn.
    + exists (length l), t. split; [|split; [exact H|]].
      * rewrite lookup_app_r by lia. rewrite Nat.sub_diag. reflexivity.
      * intros p tp Hp Hrp. apply lookup_app_Some in Hp. destruct Hp as [Hp|[_ Hp]].
        -- apply lookup_lt_Some in Hp. lia.
        -- apply list_lookup_singleton_Some in Hp. destruct Hp as [_ <-]. exact Hn.
Qed.

Lemma ledger_ok_spec l : ledger_ok l -> no_double_spend l.
Proof.
  intros H q tq x Hq Hx. pose proof (H q tq x Hq Hx) as Hu.
  apply utxo_created in Hu. destruct Hu as [r [tr [H1 [H2 H3]]]].
  apply lookup_take_Some in H1. destruct H1 as [H1 Hlt].
  exists r, tr. split; [exact H1|]. split; [exact Hlt|]. split; [exact H2|].
  intros p tp Hp [Hrp Hpq]. apply (H3 p tp); [|exact Hrp]. apply lookup_take_Some. tauto.
Qed.

(** ** Invariant *)

(** [x] was unspent after the first [h] blocks, [h] between 1 and the height now. *)
Definition seen_unspent (chain : list block) (h : N) (x : N) : Prop :=
  1 <= h <= len chain /\ x ∈ utxo (chain_txs (take (N.to_nat h) chain)).

Definition att_ok (chain : list block) (t : compact_tx) (i h : N) : Prop :=
  exists x, ctx_inputs t !! N.to_nat i = Some x /\ seen_unspent chain h x.

Definition batch_ok (y_chain : list block) (sent : list notif) (o : N) (k : compact_tx) : Prop :=
  k ∈ map nt_tx sent /\ (ctx_inputs k = [] -> o = 0) /\
  (ctx_inputs k <> [] -> 1 <= o <= len y_chain) /\
  (forall x, x ∈ ctx_inputs k -> exists h, o <= h /\ seen_unspent y_chain h x).

Record YInv (d : N) (y : asys) : Prop := {
  yi_sm : exists tr, SInv d (ys_chain y) (at_complete (ys_at y)) (ys_at y) tr;
  yi_shards : forall i s, ys_shards y !! i = Some s ->
     exists n, (n <= length (ys_chain y))%nat /\ ShInv (as_range s) (take n (ys_chain y)) s;
  yi_sent : forall n, n ∈ ys_sent y -> forall i, i ∈ nt_atts n ->
     att_ok (ys_chain y) (nt_tx n) i (nt_height n);
  yi_nodes : forall g, g ∈ ys_nodes y ->
     (forall k atts, (k, atts) ∈ ag_txs g -> k ∈ map nt_tx (ys_sent y) /\
        base.NoDup (map fst atts) /\ forall i h, (i, h) ∈ atts -> att_ok (ys_chain y) k i h) /\
     (forall o k, (o, k) ∈ ag_complete g -> batch_ok (ys_chain y) (ys_sent y) o k);
  yi_flight : forall b o k, b ∈ ys_flight y -> (o, k) ∈ b -> batch_ok (ys_chain y) (ys_sent y) o k;
  yi_ledger : ledger_ok (chain_txs (ys_chain y) ++ at_complete (ys_at y)) }.

Lemma seen_extend chain b h x : seen_unspent chain h x -> seen_unspent (chain ++ [b]) h x.
Proof.
  intros [H1 H2]. split.
  - unfold len in *. rewrite app_length. cbn [length]. lia.
  - rewrite take_app_le by (unfold len in H1; lia). exact H2.
Qed.
Lemma att_extend chain b t i h : att_ok chain t i h -> att_ok (chain ++ [b]) t i h.
Proof. intros [x [H1 H2]]. exists x. split; [exact H1|apply seen_extend; exact H2]. Qed.
Lemma batch_extend chain b sent o k : batch_ok chain sent o k -> batch_ok (chain ++ [b]) sent o k.
Proof.
  intros [H1 [H2 [H3 H4]]]. split; [exact H1|]. split; [exact H2|]. split.
  - intro H. specialize (H3 H). unfold len in *. rewrite app_length. cbn [length]. lia.
  - intros x Hx. destruct (H4 x Hx) as [h [A B]]. exists h. split; [exact A|apply seen_extend; exact B].
Qed.
Lemma sent_extend (sent : list notif) n (k : compact_tx) : k ∈ map nt_tx sent -> k ∈ map nt_tx (sent ++ [n]).
Proof. intro H. rewrite map_app. apply elem_of_app. left. exact H. Qed.
Lemma batch_sent chain sent n o k : batch_ok chain sent o k -> batch_ok chain (sent ++ [n]) o k.
Proof. intros [H1 H2]. split; [apply sent_extend; exact H1|exact H2]. Qed.

(** ** The aggregation at a node *)

Lemma emplace_map_elem {K V} `{EqDecision K} (m : list (K * V)) k v p :
  p ∈ emplace_map m k v -> p ∈ m \/ p = (k, v).
Proof.
  unfold emplace_map. destruct (decide _); [tauto|].
  rewrite elem_of_app, elem_of_list_singleton. tauto.
Qed.
Lemma emplace_map_nodup {K V} `{EqDecision K} (m : list (K * V)) k v :
  base.NoDup (map fst m) -> base.NoDup (map fst (emplace_map m k v)).
Proof.
  unfold emplace_map. destruct (decide _) as [H|H]; [tauto|]. intro Hn.
  rewrite map_app. apply NoDup_app. split; [exact Hn|]. split.
  - intros x Hx Hk. cbn in Hk. apply elem_of_list_singleton in Hk. subst. contradiction.
  - cbn. apply NoDup_singleton.
Qed.

Lemma add_atts (h : N) (is : list N) : forall (m : list (N * N)),
  base.NoDup (map fst m) ->
  base.NoDup (map fst (fold_left (fun s i => emplace_map s i h) is m)) /\
  forall i h', (i, h') ∈ fold_left (fun s i => emplace_map s i h) is m ->
     (i, h') ∈ m \/ (i ∈ is /\ h' = h).
Proof.
  induction is as [|j l IH]; intros m Hm; cbn [fold_left]; [split; [exact Hm|tauto]|].
  destruct (IH (emplace_map m j h) (emplace_map_nodup m j h Hm)) as [H1 H2]. split; [exact H1|].
  intros i h' Hi. destruct (H2 i h' Hi) as [Hi'|[Hi' ->]].
  - apply emplace_map_elem in Hi'. destruct Hi' as [Hi'|Hi']; [tauto|].
    injection Hi' as -> ->. right. split; [apply elem_of_list_here|reflexivity].
  - right. split; [apply elem_of_list_further; exact Hi'|reflexivity].
Qed.

Lemma oldest_spec (atts : list (N * N)) : (forall i h, (i, h) ∈ atts -> 1 <= h) ->
  (atts = [] -> oldest_of atts = 0) /\
  (atts <> [] -> 1 <= oldest_of atts /\ exists i, (i, oldest_of atts) ∈ atts) /\
  (forall i h, (i, h) ∈ atts -> oldest_of atts <= h).
Proof.
  intro Hpos. unfold oldest_of.
  assert (Gen : forall l o, (forall i h, (i, h) ∈ l -> 1 <= h) ->
    let r := fold_left (fun o p => if (o =? 0) || (snd p <? o) then snd p else o) l o in
    (o = 0 -> l = [] -> r = 0) /\
    (o <> 0 \/ l <> [] -> 1 <= r /\ (r = o \/ exists i : N, (i, r) ∈ l)) /\
    (forall i h, (i, h) ∈ l -> r <= h) /\ (o <> 0 -> r <= o)).
  { induction l as [|[i1 h1] l IH]; intros o Hp; cbn [fold_left snd].
    - split; [tauto|]. split; [intros [?|?]; [split; [lia|left; reflexivity]|congruence]|].
      split; [intros i h H; inversion H|lia].
    - assert (H1 : 1 <= h1) by (apply (Hp i1); apply elem_of_list_here).
      assert (Hp' : forall i h, (i, h) ∈ l -> 1 <= h).
      { intros i h H. apply (Hp i). apply elem_of_list_further. exact H. }
      set (o' := if (o =? 0) || (h1 <? o) then h1 else o).
      assert (Ho' : o' <> 0 /\ o' <= h1 /\ (o <> 0 -> o' <= o) /\ (o' = h1 \/ o' = o)).
      { unfold o'. destruct (N.eqb_spec o 0), (N.ltb_spec h1 o); cbn; lia. }
      destruct Ho' as [Ho1 [Ho2 [Ho3 Ho4]]].
      destruct (IH o' Hp') as [G1 [G2 [G3 G4]]]. split; [intros _ H; discriminate|].
      destruct (G2 (or_introl Ho1)) as [G5 G6]. split; [|split].
      + intro Hor. split; [exact G5|]. destruct G6 as [G6|[i Hi]].
        * destruct Ho4 as [Ho4|Ho4].
          -- right. exists i1. rewrite G6, Ho4. apply elem_of_list_here.
          -- left. congruence.
        * right. exists i. apply elem_of_list_further. exact Hi.
      + intros i h H. apply elem_of_cons in H. destruct H as [H|H].
        * injection H as -> ->. specialize (G4 Ho1). lia.
        * exact (G3 i h H).
      + intro Ho. specialize (G4 Ho1). specialize (Ho3 Ho). lia. }
  destruct (Gen atts 0 Hpos) as [G1 [G2 [G3 _]]]. split; [tauto|]. split; [|exact G3].
  intro Hne. destruct (G2 (or_intror Hne)) as [A B]. split; [exact A|].
  destruct B as [B|B]; [lia|exact B].
Qed.

Lemma tx_notify_ok attested chain sent g n :
  ids_honest (map nt_tx sent) -> n ∈ sent ->
  (forall i, i ∈ nt_atts n -> att_ok chain (nt_tx n) i (nt_height n)) ->
  (forall k atts, (k, atts) ∈ ag_txs g -> k ∈ map nt_tx sent /\
        base.NoDup (map fst atts) /\ forall i h, (i, h) ∈ atts -> att_ok chain k i h) ->
  (forall o k, (o, k) ∈ ag_complete g -> batch_ok chain sent o k) ->
  let g' := tx_notify attested g n in
  (forall k atts, (k, atts) ∈ ag_txs g' -> k ∈ map nt_tx sent /\
        base.NoDup (map fst atts) /\ forall i h, (i, h) ∈ atts -> att_ok chain k i h) /\
  (forall o k, (o, k) ∈ ag_complete g' -> batch_ok chain sent o k).
Proof.
  intros Hon Hn Hatt Htx Hcm. unfold tx_notify.
  destruct (attested (nt_tx n)); cbn [negb]; [|tauto].
  assert (Hin : nt_tx n ∈ map nt_tx sent).
  { apply elem_of_list_In, in_map_iff. exists n. split; [reflexivity|apply elem_of_list_In; exact Hn]. }
  set (add := fold_left (fun s i => emplace_map s i (nt_height n)) (nt_atts n)).
  (* entries with the ID of n *)
  assert (Hadd : forall k old, k ∈ map nt_tx sent -> ctx_id k = ctx_id (nt_tx n) ->
     base.NoDup (map fst old) -> (forall i h, (i, h) ∈ old -> att_ok chain k i h) ->
     base.NoDup (map fst (add old)) /\ forall i h, (i, h) ∈ add old -> att_ok chain k i h).
  { intros k old Hk Hid Hnd Hok. destruct (add_atts (nt_height n) (nt_atts n) old Hnd) as [A1 A2].
    split; [exact A1|]. intros i h Hi. destruct (A2 i h Hi) as [Hi'|[Hi' ->]]; [apply Hok; exact Hi'|].
    destruct (Hatt i Hi') as [x [Hx1 Hx2]]. exists x. split; [|exact Hx2].
    destruct (Hon k (nt_tx n) Hk Hin Hid) as [E _]. rewrite E. exact Hx1. }
  assert (Hkey : exists key atts m,
     match pend_find (ag_txs g) (ctx_id (nt_tx n)) with
     | Some (k, old) => (k, add old, pend_set (ag_txs g) (ctx_id (nt_tx n)) (add old))
     | None => (nt_tx n, add [], ag_txs g ++ [(nt_tx n, add [])])
     end = (key, atts, m) /\ key ∈ map nt_tx sent /\
     base.NoDup (map fst atts) /\ (forall i h, (i, h) ∈ atts -> att_ok chain key i h) /\
     (forall k atts, (k, atts) ∈ m -> k ∈ map nt_tx sent /\
        base.NoDup (map fst atts) /\ forall i h, (i, h) ∈ atts -> att_ok chain k i h)).
  { destruct (pend_find (ag_txs g) (ctx_id (nt_tx n))) as [[k old]|] eqn:E.
    - apply pend_find_some in E. destruct E as [E1 E2]. destruct (Htx k old E1) as [K1 [K2 K3]].
      destruct (Hadd k old K1 E2 K2 K3) as [A1 A2].
      exists k, (add old), (pend_set (ag_txs g) (ctx_id (nt_tx n)) (add old)).
      split; [reflexivity|]. split; [exact K1|]. split; [exact A1|]. split; [exact A2|].
      intros k2 at2 H. apply pend_set_elem in H. destruct H as [[H1 [-> [v0 H2]]]|H]; [|apply Htx; exact H].
      destruct (Htx k2 v0 H2) as [B1 _]. split; [exact B1|]. split; [exact A1|].
      intros i h Hi. destruct (A2 i h Hi) as [x [X1 X2]]. exists x. split; [|exact X2].
      destruct (Hon k2 k B1 K1 ltac:(congruence)) as [Ein _]. rewrite Ein. exact X1.
    - destruct (Hadd (nt_tx n) [] Hin eq_refl) as [A1 A2].
      { cbn. constructor. } { intros i h H. inversion H. }
      exists (nt_tx n), (add []), (ag_txs g ++ [(nt_tx n, add [])]).
      split; [reflexivity|]. split; [exact Hin|]. split; [exact A1|]. split; [exact A2|].
      intros k2 at2 H. apply elem_of_app in H. destruct H as [H|H]; [apply Htx; exact H|].
      apply elem_of_list_singleton in H. injection H as -> ->. tauto. }
  destruct Hkey as [key [atts [m [Ek [K1 [K2 [K3 K4]]]]]]]. rewrite Ek.
  destruct (N.eqb_spec (len atts) (len (ctx_inputs key))) as [Hlen|Hlen]; cbn [ag_txs ag_complete].
  2:{ split; [exact K4|exact Hcm]. }
  split.
  - intros k at2 H. apply pend_erase_elem in H. apply K4. exact H.
  - intros o k H. apply elem_of_app in H. destruct H as [H|H]; [apply Hcm; exact H|].
    apply elem_of_list_singleton in H. injection H as -> ->.
    destruct (oldest_spec atts) as [O1 [O2 O3]].
    { intros i h Hi. destruct (K3 i h Hi) as [x [_ [Hx _]]]. lia. }
    split; [exact K1|]. split; [|split].
    + intro He. rewrite He in Hlen. apply O1. destruct atts; [reflexivity|]. unfold len in Hlen. cbn in Hlen. lia.
    + intro Hne. destruct O2 as [O4 [i Hi]].
      { intros ->. unfold len in Hlen. cbn in Hlen. destruct (ctx_inputs key); [congruence|]. cbn in Hlen. lia. }
      destruct (K3 i _ Hi) as [x [_ [Hx _]]]. lia.
    + intros x Hx. apply elem_of_list_lookup in Hx. destruct Hx as [j Hj].
      assert (Hjin : N.of_nat j ∈ map fst atts).
      { eapply pigeon; [exact K2| | |].
        - rewrite map_length. reflexivity.
        - intros i Hi. apply elem_of_list_In, in_map_iff in Hi. destruct Hi as [[i' h'] [<- Hi]].
          apply elem_of_list_In in Hi. destruct (K3 i' h' Hi) as [x' [Hx' _]]. cbn [fst].
          apply lookup_lt_Some in Hx'. unfold len, hash in *. lia.
        - apply lookup_lt_Some in Hj. unfold len, hash in *. lia. }
      apply elem_of_list_In, in_map_iff in Hjin. destruct Hjin as [[i' h'] [Ei Hi]].
      cbn in Ei. subst i'. apply elem_of_list_In in Hi.
      destruct (K3 _ h' Hi) as [x' [Hx' Hs]]. rewrite Nat2N.id in Hx'.
      assert (Exx : Some x' = Some x) by (etransitivity; [symmetry; exact Hx'|exact Hj]).
      injection Exx as ->.
      exists h'. split; [exact (O3 _ h' Hi)|exact Hs].
Qed.

(** ** A batch reaches the state machine *)

Lemma accept_unspent d chain next o t x h :
  consecutive 1 chain ->
  verdict d (Ledger chain next []) o t None -> x ∈ ctx_inputs t ->
  o <= h -> seen_unspent chain h x ->
  x ∈ utxo (chain_txs chain ++ next).
Proof.
  intros Hcons V Hx Hoh [Hh Hu].
  inversion V as [He|Hne Hw Hns| |]; subst; [rewrite He in Hx; inversion Hx|].
  specialize (Hns x Hx).
  assert (Hsplit : chain_txs chain ++ next =
     chain_txs (take (N.to_nat h) chain) ++ (chain_txs (drop (N.to_nat h) chain) ++ next)).
  { rewrite app_assoc, <- chain_txs_app, take_drop. reflexivity. }
  rewrite Hsplit. apply utxo_survives; [exact Hu|].
  intros t' Ht' Hx'. apply Hns. unfold spent_after. cbn [lg_chain lg_next].
  apply elem_of_app in Ht'. destruct Ht' as [Ht'|Ht'].
  - left. unfold chain_txs in Ht'. apply elem_of_list_In, in_concat in Ht'.
    destruct Ht' as [l [Hl Ht']]. apply in_map_iff in Hl. destruct Hl as [b [<- Hb]].
    apply elem_of_list_In, elem_of_list_lookup in Hb. destruct Hb as [i Hi].
    rewrite lookup_drop in Hi. exists b, t'. split; [eapply elem_of_list_lookup_2; exact Hi|].
    split; [rewrite (Hcons _ _ Hi); lia|]. split; [apply elem_of_list_In; exact Ht'|exact Hx'].
  - right. exists t'. tauto.
Qed.

Lemma commit_batch d sent txs : forall chain a tr,
  SInv d chain (at_complete a) a tr -> len chain < two64 - 1 -> len chain + d < two64 ->
  (forall o k, (o, k) ∈ txs -> batch_ok chain sent o k) ->
  ledger_ok (chain_txs chain ++ at_complete a) ->
  exists a' es tr', insert_all a txs = ADone (a', es) /\
    SInv d chain (at_complete a') a' tr' /\
    ledger_ok (chain_txs chain ++ at_complete a').
Proof.
  induction txs as [|[o t] r IH]; intros chain a tr S H1 H2 Hb HL.
  - exists a, [], tr. split; [reflexivity|]. tauto.
  - destruct (Hb o t (elem_of_list_here _ _)) as [_ [B2 [B3 B4]]].
    assert (Ho : o + d < two64).
    { destruct (decide (ctx_inputs t = [])) as [He|Hne]; [rewrite (B2 He)|specialize (B3 Hne)]; lia. }
    destruct (insert_complete_verdict d chain (at_complete a) [] a tr o t S H1 Ho B2) as [a1 [e [E [V Hn]]]].
    assert (Hb' : forall o k, (o, k) ∈ r -> batch_ok chain sent o k).
    { intros o' k' H. apply Hb. apply elem_of_list_further. exact H. }
    cbn [insert_all]. rewrite E. cbn [abind]. destruct e as [e|].
    + subst a1. destruct (IH chain a tr S H1 H2 Hb' HL) as [a' [es [tr' [E' [S' L']]]]].
      rewrite E'. cbn [abind]. exists a', (e :: es), tr'. split; [reflexivity|]. tauto.
    + destruct Hn as [tr1 S1]. pose proof (si_next _ _ _ _ _ S1) as Hnx.
      rewrite <- Hnx in S1.
      destruct (IH chain a1 tr1 S1 H1 H2 Hb') as [a' [es [tr' [E' [S' L']]]]].
      { rewrite Hnx, app_assoc. apply ledger_ok_snoc; [exact HL|].
        intros x Hx. destruct (B4 x Hx) as [h [Hoh Hs]].
        eapply accept_unspent; [exact (si_heights _ _ _ _ _ S)|exact V|exact Hx|exact Hoh|exact Hs]. }
      rewrite E'. cbn [abind]. exists a', es, tr'. split; [reflexivity|]. tauto.
Qed.

(** ** Steps *)
Section steps.
Context (attested : compact_tx -> bool) (d : N).

Definition fits (y : asys) : Prop :=
  ids_honest (map nt_tx (ys_sent y)) /\ len (ys_chain y) + 1 < two64 - 1 /\ len (ys_chain y) + d < two64.

Lemma YInv_new ranges nodes : YInv d (asys_new ranges nodes d).
Proof.
  constructor; cbn [asys_new ys_shards ys_sent ys_nodes ys_flight ys_at ys_chain].
  - exists []. apply SInv_new.
  - intros i s H. exists 0%nat. split; [lia|]. rewrite list_lookup_fmap in H.
    destruct (ranges !! i) as [r|]; [|discriminate]. injection H as <-.
    exact (ShInv_new r).
  - intros n H. inversion H.
  - intros g H. apply elem_of_list_In, repeat_spec in H. subst g. split; intros ? ? H; inversion H.
  - intros b o k H. inversion H.
  - intros q tq x H. cbn in H. destruct q; discriminate.
Qed.

Lemma YInv_step y l : YInv d y -> fits y ->
  match asys_step attested y l with
  | YOk y' => fits y' -> YInv d y'
  | YNo => True
  | YUndefined | YHang => False
  end.
Proof.
  intros I [Hon [Hlen Hd]]. destruct l as [i t|t h|j k|j|k| |i k|j|i]; cbn [asys_step].
  - (* LTx *)
    destruct (ys_shards y !! i) as [s|] eqn:Es; [|exact Logic.I].
    destruct (attested t); [|intros _; exact I].
    destruct (yi_shards _ _ I i s Es) as [n [Hn Sh]].
    pose proof (ShInv_truthful _ _ _ t Sh) as T.
    destruct (ashard_digest_tx (fun _ => false) s t) as [nt|err]; [|intros _; exact I].
    intros _. destruct T as [T1 [T2 [T3 [T4 [T5 [T6 T7]]]]]].
    destruct I as [I1 I2 I3 I4 I5 I6].
    constructor; cbn [with_sent ys_shards ys_sent ys_nodes ys_flight ys_at ys_chain]; auto.
    + intros n0 Hn0 i0 Hi0. apply elem_of_app in Hn0. destruct Hn0 as [Hn0|Hn0]; [apply I3; assumption|].
      apply elem_of_list_singleton in Hn0. subst n0. apply T6 in Hi0. destruct Hi0 as [x [Hx Hr]].
      exists x. rewrite T1. split; [exact Hx|]. rewrite T2.
      assert (Hln : len (take n (ys_chain y)) = N.of_nat n).
      { unfold len. rewrite take_length. lia. }
      split.
      * rewrite Hln. unfold len. destruct n as [|n]; [exfalso; apply T3; reflexivity|]. lia.
      * rewrite Hln, Nat2N.id.
        destruct (decide (x ∈ utxo (chain_txs (take n (ys_chain y))))) as [Hu|Hu]; [exact Hu|].
        exfalso. apply (T5 x); [eapply elem_of_list_lookup_2; exact Hx|]. tauto.
    + intros g Hg. destruct (I4 g Hg) as [G1 G2]. split.
      * intros k atts Hk. destruct (G1 k atts Hk) as [A B]. split; [apply sent_extend; exact A|exact B].
      * intros o k Hk. apply batch_sent. apply G2. exact Hk.
    + intros b o k Hb Hk. apply batch_sent. eapply I5; eassumption.
  - (* LMint *)
    destruct (ctx_inputs t) as [|x0 l0] eqn:Et; [|exact Logic.I]. intros _.
    destruct I as [I1 I2 I3 I4 I5 I6].
    constructor; cbn [with_sent ys_shards ys_sent ys_nodes ys_flight ys_at ys_chain]; auto.
    + intros n0 Hn0 i0 Hi0. apply elem_of_app in Hn0. destruct Hn0 as [Hn0|Hn0]; [apply I3; assumption|].
      apply elem_of_list_singleton in Hn0. subst n0. inversion Hi0.
    + intros g Hg. destruct (I4 g Hg) as [G1 G2]. split.
      * intros k atts Hk. destruct (G1 k atts Hk) as [A B]. split; [apply sent_extend; exact A|exact B].
      * intros o k Hk. apply batch_sent. apply G2. exact Hk.
    + intros b o k Hb Hk. apply batch_sent. eapply I5; eassumption.
  - (* LDeliver *)
    destruct (ys_nodes y !! j) as [g|] eqn:Eg; [|exact Logic.I].
    destruct (ys_sent y !! k) as [n|] eqn:En; [|exact Logic.I]. intros _.
    destruct I as [I1 I2 I3 I4 I5 I6].
    constructor; cbn [with_node ys_shards ys_sent ys_nodes ys_flight ys_at ys_chain]; auto.
    intros g' Hg'. apply elem_of_list_lookup in Hg'. destruct Hg' as [j' Hj'].
    apply list_lookup_insert_Some in Hj'. destruct Hj' as [[_ [<- _]]|[_ Hj']].
    + destruct (I4 g) as [G1 G2]; [eapply elem_of_list_lookup_2; exact Eg|].
      assert (Hnin : n ∈ ys_sent y) by (eapply elem_of_list_lookup_2; exact En).
      apply tx_notify_ok; [exact Hon|exact Hnin|apply I3; exact Hnin|exact G1|exact G2].
    + apply I4. eapply elem_of_list_lookup_2. exact Hj'.
  - (* LFlush *)
    destruct (ys_nodes y !! j) as [g|] eqn:Eg; [|exact Logic.I]. cbn [send_complete_txs]. intros _.
    destruct I as [I1 I2 I3 I4 I5 I6].
    destruct (I4 g) as [G1 G2]; [eapply elem_of_list_lookup_2; exact Eg|].
    constructor; cbn [ys_shards ys_sent ys_nodes ys_flight ys_at ys_chain]; auto.
    + intros g' Hg'. apply elem_of_list_lookup in Hg'. destruct Hg' as [j' Hj'].
      apply list_lookup_insert_Some in Hj'. destruct Hj' as [[_ [<- _]]|[_ Hj']].
      * cbn [ag_txs ag_complete]. split; [exact G1|]. intros o k Hk. inversion Hk.
      * apply I4. eapply elem_of_list_lookup_2. exact Hj'.
    + intros b o k Hb Hk. apply elem_of_app in Hb. destruct Hb as [Hb|Hb]; [eapply I5; eassumption|].
      apply elem_of_list_singleton in Hb. subst b. apply G2. exact Hk.
  - (* LCommit *)
    destruct (ys_flight y !! k) as [b|] eqn:Eb; [|exact Logic.I].
    destruct I as [[tr I1] I2 I3 I4 I5 I6].
    destruct (commit_batch d (ys_sent y) b (ys_chain y) (ys_at y) tr I1 ltac:(lia) Hd)
      as [a' [es [tr' [E [S' L']]]]].
    { intros o k0 Hk. eapply I5; [eapply elem_of_list_lookup_2; exact Eb|exact Hk]. }
    { exact I6. }
    rewrite E. cbn [of_aout]. intros _.
    constructor; cbn [ys_shards ys_sent ys_nodes ys_flight ys_at ys_chain]; auto.
    + exists tr'. exact S'.
    + intros b0 o k0 Hb Hk. eapply I5; [|exact Hk].
      apply elem_of_list_lookup in Hb. destruct Hb as [n Hn].
      destruct (decide (n < k)%nat) as [Hlt|Hge].
      * rewrite lookup_delete_lt in Hn by exact Hlt. eapply elem_of_list_lookup_2; exact Hn.
      * rewrite lookup_delete_ge in Hn by lia. eapply elem_of_list_lookup_2; exact Hn.
  - (* LBlock *)
    destruct I as [[tr I1] I2 I3 I4 I5 I6].
    destruct (SInv_block d (ys_chain y) (at_complete (ys_at y)) (ys_at y) tr I1 ltac:(lia)) as [a' [tr' [E S']]].
    rewrite E. cbn [of_aout]. intros _. pose proof (si_next _ _ _ _ _ S') as Hnx.
    set (b := Block (len (ys_chain y) + 1) (at_complete (ys_at y))) in *.
    constructor; cbn [ys_shards ys_sent ys_nodes ys_flight ys_at ys_chain].
    + exists tr'. rewrite Hnx. exact S'.
    + intros i s Hi. destruct (I2 i s Hi) as [n [Hn Sh]]. exists n.
      split; [rewrite app_length; lia|]. rewrite take_app_le by exact Hn. exact Sh.
    + intros n Hn i Hi. apply att_extend. apply I3; assumption.
    + intros g Hg. destruct (I4 g Hg) as [G1 G2]. split.
      * intros k atts Hk. destruct (G1 k atts Hk) as [A [B C]]. split; [exact A|]. split; [exact B|].
        intros i h Hi. apply att_extend. apply C. exact Hi.
      * intros o k Hk. apply batch_extend. apply G2. exact Hk.
    + intros b0 o k Hb Hk. apply batch_extend. eapply I5; eassumption.
    + rewrite Hnx, app_nil_r, chain_txs_app, chain_txs_single. exact I6.
  - (* LDigest *)
    destruct (ys_shards y !! i) as [s|] eqn:Es; [|exact Logic.I].
    destruct (ys_chain y !! k) as [b|] eqn:Eb; [|exact Logic.I]. intros _.
    destruct I as [[tr I1] I2 I3 I4 I5 I6].
    constructor; cbn [with_shard ys_shards ys_sent ys_nodes ys_flight ys_at ys_chain]; auto.
    { exists tr. exact I1. }
    intros i' s' Hi'. apply list_lookup_insert_Some in Hi'. destruct Hi' as [[_ [<- _]]|[_ Hi']].
    + destruct (I2 i s Es) as [n [Hn Sh]].
      assert (Hln : len (take n (ys_chain y)) = N.of_nat n).
      { unfold len. rewrite take_length. lia. }
      assert (Hbh : blk_height b = 1 + N.of_nat k) by exact (si_heights _ _ _ _ _ I1 _ _ Eb).
      destruct (ShInv_digest _ _ _ b Sh) as [D1 D2].
      { rewrite Hln. unfold len in Hlen. lia. }
      destruct (decide (n = k)) as [->|Hne].
      * destruct D1 as [_ D1]; [rewrite Hln, Hbh; lia|].
        exists (S k). pose proof (lookup_lt_Some _ _ _ Eb) as Hk. split; [lia|].
        rewrite (take_S_r _ _ b) by exact Eb.
        rewrite (sh_range _ _ _ D1). exact D1.
      * rewrite D2 by (rewrite Hln, Hbh; lia). cbn [fst]. exists n. tauto.
    + apply (I2 i'). exact Hi'.
  - (* LCrashNode *)
    destruct (ys_nodes y !! j) as [g|] eqn:Eg; [|exact Logic.I]. intros _.
    destruct I as [I1 I2 I3 I4 I5 I6].
    constructor; cbn [with_node ys_shards ys_sent ys_nodes ys_flight ys_at ys_chain]; auto.
    intros g' Hg'. apply elem_of_list_lookup in Hg'. destruct Hg' as [j' Hj'].
    apply list_lookup_insert_Some in Hj'. destruct Hj' as [[_ [<- _]]|[_ Hj']].
    + split; intros ? ? H; inversion H.
    + apply I4. eapply elem_of_list_lookup_2. exact Hj'.
  - (* LCrashShard *)
    destruct (ys_shards y !! i) as [s|] eqn:Es; [|exact Logic.I]. intros _.
    destruct I as [I1 I2 I3 I4 I5 I6].
    constructor; cbn [with_shard ys_shards ys_sent ys_nodes ys_flight ys_at ys_chain]; auto.
    intros i' s' Hi'. apply list_lookup_insert_Some in Hi'. destruct Hi' as [[_ [<- _]]|[_ Hi']].
    + destruct (I2 i s Es) as [n [Hn Sh]]. exists n. split; [exact Hn|].
      exact (ShInv_reopen _ _ _ Sh).
    + apply (I2 i'). exact Hi'.
Qed.

Lemma step_mono y l y' : asys_step attested y l = YOk y' ->
  (exists s, ys_sent y' = ys_sent y ++ s) /\ len (ys_chain y) <= len (ys_chain y').
Proof.
  intro H. assert (Triv : forall z, ys_sent z = ys_sent y -> ys_chain z = ys_chain y ->
    (exists s, ys_sent z = ys_sent y ++ s) /\ len (ys_chain y) <= len (ys_chain z)).
  { intros z E1 E2. rewrite E1, E2. split; [exists []; rewrite app_nil_r; reflexivity|lia]. }
  destruct l as [i t|t h|j k|j|k| |i k|j|i]; cbn [asys_step] in H.
  - destruct (ys_shards y !! i); [|discriminate]. destruct (attested t).
    + destruct (ashard_digest_tx _ _ _); injection H as <-; [|apply Triv; reflexivity].
      split; [eexists; reflexivity|cbn; lia].
    + injection H as <-. apply Triv; reflexivity.
  - destruct (ctx_inputs t); [|discriminate]. injection H as <-.
    split; [eexists; reflexivity|cbn; lia].
  - destruct (ys_nodes y !! j); [|discriminate]. destruct (ys_sent y !! k); [|discriminate].
    injection H as <-. apply Triv; reflexivity.
  - destruct (ys_nodes y !! j); [|discriminate]. injection H as <-. apply Triv; reflexivity.
  - destruct (ys_flight y !! k); [|discriminate].
    destruct (insert_all (ys_at y) l) as [[a' es]| |]; cbn [of_aout] in H; try discriminate.
    injection H as <-. apply Triv; reflexivity.
  - destruct (make_block (ys_at y)) as [[a' [b es]]| |]; cbn [of_aout] in H; try discriminate.
    injection H as <-. cbn [ys_sent ys_chain]. split; [exists []; rewrite app_nil_r; reflexivity|].
    unfold len. rewrite app_length. lia.
  - destruct (ys_shards y !! i); [|discriminate]. destruct (ys_chain y !! k); [|discriminate].
    injection H as <-. apply Triv; reflexivity.
  - destruct (ys_nodes y !! j); [|discriminate]. injection H as <-. apply Triv; reflexivity.
  - destruct (ys_shards y !! i); [|discriminate]. injection H as <-. apply Triv; reflexivity.
Qed.

Lemma run_mono ls : forall y y', asys_run attested y ls = YOk y' ->
  (exists s, ys_sent y' = ys_sent y ++ s) /\ len (ys_chain y) <= len (ys_chain y').
Proof.
  induction ls as [|l r IH]; intros y y' H; cbn [asys_run] in H.
  - injection H as <-. split; [exists []; rewrite app_nil_r; reflexivity|lia].
  - destruct (asys_step attested y l) as [y1| | |] eqn:E; try discriminate.
    destruct (step_mono _ _ _ E) as [[s1 E1] L1]. destruct (IH _ _ H) as [[s2 E2] L2].
    split; [exists (s1 ++ s2); rewrite E2, E1, app_assoc; reflexivity|lia].
Qed.

Lemma fits_back y y' : (exists s, ys_sent y' = ys_sent y ++ s) -> len (ys_chain y) <= len (ys_chain y') ->
  fits y' -> fits y.
Proof.
  intros [s E] L [H1 [H2 H3]]. split; [|lia].
  intros t1 t2 A B. rewrite E, map_app in H1. apply H1; apply elem_of_app; left; assumption.
Qed.

Lemma YInv_run ls : forall y y', YInv d y -> asys_run attested y ls = YOk y' -> fits y' -> YInv d y'.
Proof.
  induction ls as [|l r IH]; intros y y' I H F; cbn [asys_run] in H.
  - injection H as <-. exact I.
  - pose proof (YInv_step y l I) as S.
    destruct (asys_step attested y l) as [y1| | |] eqn:E; try discriminate.
    destruct (run_mono _ _ _ H) as [M1 M2]. pose proof (fits_back _ _ M1 M2 F) as F1.
    destruct (step_mono _ _ _ E) as [N1 N2]. pose proof (fits_back _ _ N1 N2 F1) as F0.
    exact (IH _ _ (S F0 F1) H F).
Qed.

(** No double spend, on chain and in what waits for the next block. *)
Theorem system_no_double_spend ranges nodes ls y :
  asys_run attested (asys_new ranges nodes d) ls = YOk y ->
  ids_honest (map nt_tx (ys_sent y)) ->
  len (ys_chain y) + 2 < two64 -> len (ys_chain y) + d < two64 ->
  no_double_spend (chain_txs (ys_chain y)).
Proof.
  intros H Hon H1 H2.
  assert (I : YInv d y).
  { eapply YInv_run; [apply YInv_new|exact H|]. split; [exact Hon|]. split; [lia|exact H2]. }
  pose proof (yi_ledger _ _ I) as L. apply ledger_ok_spec in L.
  intros q tq x Hq Hx.
  destruct (L q tq x) as [r [tr [A [B [C D]]]]]; [|exact Hx|].
  { rewrite lookup_app_l by (eapply lookup_lt_Some; exact Hq). exact Hq. }
  pose proof (lookup_lt_Some _ _ _ Hq) as Hql.
  exists r, tr. split; [rewrite lookup_app_l in A by lia; exact A|].
  split; [exact B|]. split; [exact C|]. intros p tp Hp Hpq. apply (D p tp); [|exact Hpq].
  rewrite lookup_app_l by (eapply lookup_lt_Some; exact Hp). exact Hp.
Qed.

(** The next step is never undefined and never hangs. *)
Theorem system_safe ranges nodes ls y l :
  asys_run attested (asys_new ranges nodes d) ls = YOk y ->
  ids_honest (map nt_tx (ys_sent y)) ->
  len (ys_chain y) + 2 < two64 -> len (ys_chain y) + d < two64 ->
  asys_step attested y l <> YUndefined /\ asys_step attested y l <> YHang.
Proof.
  intros H Hon H1 H2.
  assert (F : fits y) by (split; [exact Hon|]; split; [lia|exact H2]).
  assert (I : YInv d y) by (eapply YInv_run; [apply YInv_new|exact H|exact F]).
  pose proof (YInv_step y l I F) as S.
  destruct (asys_step attested y l); [split; discriminate|split; discriminate|contradiction|contradiction].
Qed.

(** Every shard's database is the chain it has applied, and the chain is numbered. *)
Theorem system_shards ranges nodes ls y i s :
  asys_run attested (asys_new ranges nodes d) ls = YOk y ->
  ids_honest (map nt_tx (ys_sent y)) ->
  len (ys_chain y) + 2 < two64 -> len (ys_chain y) + d < two64 ->
  ys_shards y !! i = Some s ->
  consecutive 1 (ys_chain y) /\
  exists n, (n <= length (ys_chain y))%nat /\ as_best s = N.of_nat n /\
    shard_holds (as_range s) (take n (ys_chain y)) (db_uhs (as_db s)).
Proof.
  intros H Hon H1 H2 Hi.
  assert (F : fits y) by (split; [exact Hon|]; split; [lia|exact H2]).
  assert (I : YInv d y) by (eapply YInv_run; [apply YInv_new|exact H|exact F]).
  split; [destruct (yi_sm _ _ I) as [tr S]; exact (si_heights _ _ _ _ _ S)|].
  destruct (yi_shards _ _ I i s Hi) as [n [Hn Sh]]. exists n. split; [exact Hn|].
  split; [|exact (sh_uhs _ _ _ Sh)].
  rewrite (sh_best _ _ _ Sh). unfold len. rewrite take_length. lia.
Qed.
End steps.
