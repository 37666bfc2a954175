(** Conservation of money in the atomizer architecture. *)
From Coq Require Import NArith List Bool Lia.
From stdpp Require Import base decidable list gmap.
From Verif Require Import Base CodecModel CodecProofs TxModel TxSpec TxProofs ValidationModel ValidationSpec
  MsgModel AtomizerModel AtomizerShardModel AtomizerSystemModel AtomizerSpec AtomizerShardSpec
  AtomizerProofs AtomizerSmProofs AtomizerShardProofs AtomizerCalls AtomizerSystemProofs SentinelSpec SentinelProofs SupplySpec SupplyProofs.
Import ListNotations.
Open Scope N_scope.

(** ** Where the transactions of the chain come from *)
Section Origin.
  Variable attested : compact_tx -> bool.
  Variable P : compact_tx -> Prop.

  Definition label_ok (l : alabel) : Prop :=
    match l with LTx _ t => attested t = true -> P t | LMint t _ => P t | _ => True end.

  Record origin (y : asys) : Prop := {
    og_sent : forall n, n ∈ ys_sent y -> P (nt_tx n);
    og_nodes : forall g, g ∈ ys_nodes y ->
      (forall k v, (k, v) ∈ ag_txs g -> P k) /\ (forall o k, (o, k) ∈ ag_complete g -> P k);
    og_flight : forall b o k, b ∈ ys_flight y -> (o, k) ∈ b -> P k;
    og_at : forall k, k ∈ at_complete (ys_at y) -> P k;
    og_chain : forall k, k ∈ chain_txs (ys_chain y) -> P k }.

  Lemma insert_all_origin txs : forall a a' es, insert_all a txs = ADone (a', es) ->
    (forall k, k ∈ at_complete a -> P k) -> (forall o k, (o, k) ∈ txs -> P k) ->
    forall k, k ∈ at_complete a' -> P k.
  Proof.
    induction txs as [|[o t] r IH]; intros a a' es E HA HT.
    - injection E as <- <-. exact HA.
    - cbn [insert_all] in E. destruct (insert_complete a o t) as [[a1 e]| |] eqn:E1; try discriminate E.
      cbn [abind] in E. destruct (insert_all a1 r) as [[a2 es2]| |] eqn:E2; try discriminate E.
      cbn [abind] in E. injection E as <- _. eapply IH; [exact E2| |].
      + unfold insert_complete in E1. destruct (check_notification_offset _ _ _); [injection E1 as <- _; exact HA|].
        destruct (check_stxo_cache a t (notification_offset a o)) as [[e'|]| |]; try discriminate E1; cbn [abind] in E1.
        * injection E1 as <- _. exact HA.
        * unfold add_tx_to_stxo_cache in E1. destruct (at_spent a); [discriminate E1|]. cbn [abind] in E1.
          injection E1 as <- _. cbn. intros k Hk. apply elem_of_app in Hk as [Hk|Hk]; [now apply HA|].
          apply elem_of_list_singleton in Hk as ->. eapply HT. left.
      + intros o' k' H. eapply HT. right. exact H.
  Qed.

  Lemma notify_origin g n : P (nt_tx n) ->
    (forall k v, (k, v) ∈ ag_txs g -> P k) /\ (forall o k, (o, k) ∈ ag_complete g -> P k) ->
    let g' := tx_notify attested g n in
    (forall k v, (k, v) ∈ ag_txs g' -> P k) /\ (forall o k, (o, k) ∈ ag_complete g' -> P k).
  Proof.
    intros Pn [HT HC]. unfold tx_notify. destruct (attested (nt_tx n)); cbn [negb]; [|split; assumption].
    set (add := fold_left _ (nt_atts n)).
    destruct (match pend_find (ag_txs g) (ctx_id (nt_tx n)) with
     | Some (k, old) => (k, add old, pend_set (ag_txs g) (ctx_id (nt_tx n)) (add old))
     | None => (nt_tx n, add [], ag_txs g ++ [(nt_tx n, add [])])
     end) as [[key atts] m] eqn:E.
    assert (P key /\ forall k v, (k, v) ∈ m -> P k) as [PK PM].
    { destruct (pend_find (ag_txs g) (ctx_id (nt_tx n))) as [[k old]|] eqn:F.
      - injection E as <- <- <-. apply pend_find_some in F as [F _]. split; [eapply HT, F|].
        intros k2 v H. apply pend_set_elem in H as [(_ & _ & v0 & H)|H]; eapply HT, H.
      - injection E as <- <- <-. split; [exact Pn|]. intros k v H. apply elem_of_app in H as [H|H]; [eapply HT, H|].
        apply elem_of_list_singleton in H. injection H as -> _. exact Pn. }
    destruct (_ =? _); cbn [ag_txs ag_complete]; [|split; assumption]. split.
    - intros k v H. apply pend_erase_elem in H. eapply PM, H.
    - intros o k H. apply elem_of_app in H as [H|H]; [eapply HC, H|].
      apply elem_of_list_singleton in H. injection H as _ ->. exact PK.
  Qed.

  Lemma origin_new ranges nodes d : origin (asys_new ranges nodes d).
  Proof.
    constructor; cbn.
    - intros n H. now apply elem_of_nil in H.
    - intros g H. apply elem_of_list_In, repeat_spec in H. subst g. split; intros ? ? H; now apply elem_of_nil in H.
    - intros b o k H. now apply elem_of_nil in H.
    - intros k H. now apply elem_of_nil in H.
    - intros k H. now apply elem_of_nil in H.
  Qed.
  Lemma insert_node (l : list agg) j g' g : g ∈ <[j := g']> l -> g = g' \/ g ∈ l.
  Proof.
    intros H. apply elem_of_list_lookup in H as [i H]. apply list_lookup_insert_Some in H as [(_ & <- & _)|[_ H]]; [now left|].
    right. eapply elem_of_list_lookup_2, H.
  Qed.

  Lemma origin_step y l y' : label_ok l -> origin y -> asys_step attested y l = YOk y' -> origin y'.
  Proof.
    intros L [O1 O2 O3 O4 O5] E. destruct l as [i t|t h|j k|j|k| |i k|j|i]; cbn [asys_step label_ok] in *.
    - destruct (ys_shards y !! i) as [s|]; [|discriminate E]. destruct (attested t); [|injection E as <-; now constructor].
      destruct (ashard_digest_tx _ s t) as [n|] eqn:D; injection E as <-; [|now constructor].
      constructor; cbn; auto. intros n' H. apply elem_of_app in H as [H|H]; [auto|].
      apply elem_of_list_singleton in H as ->. enough (nt_tx n = t) as -> by auto.
      unfold ashard_digest_tx in D. destruct (_ =? _); [discriminate D|].
      destruct (ctx_inputs t); [discriminate D|]. destruct (ashard_scan _ _ _ _ _) as [atts [|]]; [|discriminate D].
      now injection D as <-.
    - destruct (ctx_inputs t); [|discriminate E]. injection E as <-. constructor; cbn; auto.
      intros n H. apply elem_of_app in H as [H|H]; [auto|]. apply elem_of_list_singleton in H as ->. exact L.
    - destruct (ys_nodes y !! j) as [g|] eqn:Eg; [|discriminate E]. destruct (ys_sent y !! k) as [n|] eqn:En; [|discriminate E].
      injection E as <-. constructor; cbn; auto. intros g2 H. apply insert_node in H as [->|H]; [|auto].
      apply notify_origin; [apply O1; eapply elem_of_list_lookup_2, En|apply O2; eapply elem_of_list_lookup_2, Eg].
    - destruct (ys_nodes y !! j) as [g|] eqn:Eg; [|discriminate E]. injection E as <-.
      destruct (O2 g) as [G1 G2]; [eapply elem_of_list_lookup_2, Eg|]. constructor; cbn; auto.
      + intros g2 H. apply insert_node in H as [->|H]; [|auto]. cbn. split; [exact G1|intros ? ? H; now apply elem_of_nil in H].
      + intros b o k H H2. apply elem_of_app in H as [H|H]; [eapply O3; eauto|].
        apply elem_of_list_singleton in H as ->. eapply G2, H2.
    - destruct (ys_flight y !! k) as [b|] eqn:Eb; [|discriminate E].
      destruct (insert_all (ys_at y) b) as [[a es]| |] eqn:I; try discriminate E. cbn [of_aout] in E. injection E as <-.
      apply elem_of_list_lookup_2 in Eb. constructor; cbn; auto.
      + intros b2 o k2 H. eapply O3. apply elem_of_list_lookup in H as [n H].
        destruct (decide (n < k)%nat) as [Hlt|Hge];
          [rewrite lookup_delete_lt in H by exact Hlt|rewrite lookup_delete_ge in H by lia];
          eapply elem_of_list_lookup_2, H.
      + eapply insert_all_origin; eauto.
    - unfold make_block in E. destruct (at_txs (ys_at y) !! _); [|discriminate E]. cbn [of_aout] in E. injection E as <-.
      constructor; cbn [ys_sent ys_nodes ys_flight ys_at ys_chain at_complete]; auto;
        [intros k H; now apply elem_of_nil in H|]. intros k H.
      rewrite chain_txs_app, chain_txs_single, elem_of_app in H. destruct H as [H|H]; auto.
    - destruct (ys_shards y !! i); [|discriminate E]. destruct (ys_chain y !! k); [|discriminate E].
      injection E as <-. now constructor.
    - destruct (ys_nodes y !! j); [|discriminate E]. injection E as <-. constructor; cbn; auto.
      intros g H. apply insert_node in H as [->|H]; [|auto]. split; intros ? ? G; now apply elem_of_nil in G.
    - destruct (ys_shards y !! i); [|discriminate E]. injection E as <-. now constructor.
  Qed.
  Lemma origin_run ls : forall y y', (forall l, l ∈ ls -> label_ok l) -> origin y ->
    asys_run attested y ls = YOk y' -> origin y'.
  Proof.
    induction ls as [|l r IH]; intros y y' L O E; cbn [asys_run] in E.
    - now injection E as <-.
    - destruct (asys_step attested y l) as [y1| | |] eqn:E1; try discriminate E.
      eapply IH; [|eapply origin_step; [|exact O|exact E1]|exact E].
      + intros l' H. apply L. now right.
      + apply L. left.
  Qed.
End Origin.

Section System.
  Variable sha : bytes -> hash.
  Variable pk_parse : N -> bool.
  Variable schnorr : N -> hash -> N -> bool.
  Notation genuine := (genuine sha pk_parse schnorr).

  (** A transaction with enough attestations is genuine. *)
  Lemma attested_genuine t known threshold bad : typed_compact_tx t -> sha_fits sha ->
    check_attestations sha pk_parse schnorr t known threshold = true ->
    len bad < threshold ->
    (forall pk, In pk known -> ~ In pk bad -> faithful_key sha pk_parse schnorr pk) ->
    (exists tx, genuine tx /\ compact_of sha tx t) \/ collision sha.
  Proof.
    intros T FI C LB HK. apply check_attestations_exact in C; [|assumption]. destruct C as [(ks & ND & LK & A) _].
    destruct (SentinelProofs.pigeon sha pk_parse schnorr (fun x => x) (fun _ _ => 0) ks bad ND) as (pk & Hpk & NB); [unfold len in LB; lia|].
    destruct (A _ Hpk) as (IK & sg & _ & _ & V). destruct (HK pk IK NB _ _ V) as (tx & [TT VT] & E).
    destruct (compact_hash_commits sha t (to_compact sha tx)) as [(E1 & E2 & E3)|]; auto.
    - now apply to_compact_typed.
    - left. exists tx. split; [now split|]. repeat split; assumption.
  Qed.

  Lemma choose_all (Q : full_tx -> compact_tx -> Prop) l :
    (forall t, t ∈ l -> exists tx, Q tx t) -> exists h, Forall2 Q h l.
  Proof.
    induction l as [|t l IH]; intros H.
    - exists []. constructor.
    - destruct (H t) as [tx HT]; [left|]. destruct IH as [h Hh]; [intros u Hu; apply H; now right|].
      exists (tx :: h). now constructor.
  Qed.

  (** Genuine transactions with one ID are the same. *)
  Lemma genuine_honest l : (forall t, t ∈ l -> exists tx, genuine tx /\ compact_of sha tx t) ->
    ids_honest l \/ collision sha.
  Proof.
    intros H. apply (finite_or2 (collision sha) (fun a b => ctx_id a = ctx_id b -> same_tx a b)).
    intros a b Ha Hb. destruct (decide (ctx_id a = ctx_id b)) as [E|E]; [|now left].
    destruct (H a Ha) as (ta & [Ta _] & A1 & A2 & A3), (H b Hb) as (tb & [Tb _] & B1 & B2 & B3).
    destruct (tx_id_commits sha ta tb Ta Tb) as [[E1 E2]|]; [cbn in A1, B1; congruence| |now right].
    left. intros _. cbn in A1, B1. unfold same_tx. rewrite A2, A3, B2, B3. cbn.
    assert (tx_id sha ta = tx_id sha tb) as -> by congruence. rewrite E1, E2. split; reflexivity.
  Qed.

  Theorem chain_conserved known threshold bad d ranges nodes ls y :
    sha_fits sha -> len bad < threshold ->
    (forall pk, In pk known -> ~ In pk bad -> faithful_key sha pk_parse schnorr pk) ->
    asys_run (fun t => check_attestations sha pk_parse schnorr t known threshold) (asys_new ranges nodes d) ls = YOk y ->
    (forall i t, LTx i t ∈ ls -> typed_compact_tx t) ->
    (forall t h, LMint t h ∈ ls -> typed_compact_tx t /\
       check_attestations sha pk_parse schnorr t known threshold = true) ->
    len (ys_chain y) + 2 < two64 -> len (ys_chain y) + d < two64 ->
    issued_once (chain_txs (ys_chain y)) ->
    (exists h, Forall genuine h /\ stands_for sha h (chain_txs (ys_chain y)) /\
       backed_by sha (utxo (chain_txs (ys_chain y))) (circulating sha h) /\
       worth (circulating sha h) = issued h /\
       forall i s, ys_shards y !! i = Some s -> as_best s = len (ys_chain y) -> forall x,
         x ∈ db_uhs (as_db s) <-> in_range (as_range s) x = true /\ x ∈ map (input_hash sha) (circulating sha h))
    \/ collision sha.
  Proof.
    intros F LB HK E LT LM H1 H2 OI. set (att := fun t => check_attestations sha pk_parse schnorr t known threshold) in *.
    pose proof (origin_run att (fun t => typed_compact_tx t /\ att t = true) ls) as O.
    destruct (O (asys_new ranges nodes d) y) as [O1 _ _ _ O5]; [|apply origin_new|exact E|]; clear O.
    { intros [| | | | | | | |] Hl; cbn; try exact Logic.I; [intros A; split; [eapply LT, Hl|exact A]|eapply LM, Hl]. }
    assert (G : forall t, typed_compact_tx t /\ att t = true -> (exists tx, genuine tx /\ compact_of sha tx t) \/ collision sha).
    { intros t [T A]. eapply attested_genuine; eauto. }
    destruct (finite_or (collision sha) (fun t => exists tx, genuine tx /\ compact_of sha tx t) (map nt_tx (ys_sent y)))
      as [GS|]; [|clear G|now right].
    { intros t Ht. apply G. apply elem_of_list_fmap in Ht as (n & -> & Hn). now apply O1. }
    destruct (genuine_honest _ GS) as [HON|]; [|now right].
    pose proof (system_no_double_spend att d ranges nodes ls y E HON H1 H2) as ND.
    destruct (finite_or (collision sha) (fun t => exists tx, genuine tx /\ compact_of sha tx t) (chain_txs (ys_chain y)))
      as [GC|]; [| |now right].
    { intros t Ht. destruct (O5 t Ht) as [T A]. eapply attested_genuine; eauto. }
    destruct (choose_all (fun tx t => genuine tx /\ compact_of sha tx t) _ GC) as [h Hh].
    assert (S : stands_for sha h (chain_txs (ys_chain y))) by (eapply Forall2_impl; [exact Hh|]; now intros ? ? [_ ?]).
    assert (GH : Forall genuine h).
    { clear - Hh. induction Hh as [|tx t h l [A _] _ IH]; constructor; assumption. }
    destruct (money_conserved sha pk_parse schnorr h _ F GH S ND OI) as [[B W]|]; [|now right].
    left. exists h. split; [exact GH|]. split; [exact S|]. split; [exact B|]. split; [exact W|].
    intros i s Hi Hb x. destruct (system_shards att d ranges nodes ls y i s E HON H1 H2 Hi) as (_ & n & Ln & En & SH).
    rewrite En in Hb. unfold len in Hb. apply Nat2N.inj in Hb. subst n. rewrite firstn_all in SH.
    rewrite (SH x), (proj2 B x). reflexivity.
  Qed.
End System.
