(** Proofs about the client. *)
From Coq Require Import NArith List Bool Lia.
From stdpp Require Import base decidable list gmap fin_maps sorting.
From Verif Require Import Base CodecModel CodecProofs TxModel TxProofs MsgModel MsgProofs ValidationModel ValidationSpec WalletModel WalletSpec
  WalletProofs WatchtowerModel ClientModel ClientSpec.
Import ListNotations.
Open Scope N_scope.

Lemma first_kept_insert {V} (m : gmap N V) k v : m_insert m k v = first_kept m k v.
Proof. unfold m_insert, first_kept. now destruct (m !! k). Qed.

Lemma credit_perm own held tied i : Permutation own (held ++ tied) -> in_prevout i ∉ outpoints tied ->
  Permutation (credit own i) (credit held i ++ tied).
Proof.
  intros P NI. unfold credit.
  assert (E : in_prevout i ∈ outpoints own <-> in_prevout i ∈ outpoints held).
  { rewrite (outpoints_perm _ _ P), outpoints_app, elem_of_app. tauto. }
  destruct (bool_decide (in_prevout i ∈ outpoints held)) eqn:D.
  - apply bool_decide_eq_true in D. rewrite bool_decide_eq_true_2 by tauto. exact P.
  - apply bool_decide_eq_false in D. rewrite bool_decide_eq_false_2 by tauto. cbn. now constructor.
Qed.
Lemma credits_perm l : forall own held tied, Permutation own (held ++ tied) ->
  (forall i, In i l -> in_prevout i ∉ outpoints tied) ->
  Permutation (fold_left credit l own) (fold_left credit l held ++ tied).
Proof.
  induction l as [|i r IH]; intros own held tied P H; cbn [fold_left]; [exact P|].
  apply IH; [apply credit_perm; [exact P|apply H; now left]|]. intros; apply H; now right.
Qed.
Lemma credit_nodup own i : base.NoDup (outpoints own) -> base.NoDup (outpoints (credit own i)).
Proof.
  intros ND. unfold credit. case_bool_decide; [exact ND|]. cbn. apply NoDup_cons. auto.
Qed.
Lemma credits_nodup l : forall own, base.NoDup (outpoints own) -> base.NoDup (outpoints (fold_left credit l own)).
Proof. induction l; intros; cbn [fold_left]; auto using credit_nodup. Qed.
Lemma credits_in l : forall own p, p ∈ outpoints (fold_left credit l own) -> p ∈ outpoints own \/ p ∈ outpoints l.
Proof.
  induction l as [|i r IH]; intros own p H; cbn [fold_left] in H; [auto|].
  apply IH in H as [H|H].
  - unfold credit in H. case_bool_decide; [auto|]. cbn in H. apply elem_of_cons in H as [->|H]; [|auto].
    right. cbn. apply elem_of_cons. auto.
  - right. cbn. apply elem_of_cons. auto.
Qed.
Lemma remove_nodup g l : base.NoDup (outpoints l) -> base.NoDup (outpoints (remove g l)).
Proof.
  intros ND. induction l as [|c r IH]; cbn; [constructor|]. cbn in ND. apply NoDup_cons in ND as [N1 N2].
  destruct (bool_decide _); cbn [negb]; [auto|]. cbn. apply NoDup_cons. split; [|auto].
  intros H. apply N1. apply in_outpoints in H as (d & Hd & E). apply filter_In in Hd as [Hd _].
  apply in_outpoints. eauto.
Qed.
Lemma remove_in g l p : p ∈ outpoints (remove g l) <-> p ∈ outpoints l /\ p ∉ g.
Proof.
  rewrite !in_outpoints. unfold remove. split.
  - intros (c & Hc & <-). apply filter_In in Hc as [Hc B]. apply negb_true_iff, bool_decide_eq_false in B. eauto.
  - intros [(c & Hc & <-) N]. exists c. split; [|auto]. apply filter_In. split; [auto|].
    apply negb_true_iff. now apply bool_decide_eq_false.
Qed.
Lemma in_remove g l c : In c (remove g l) <-> In c l /\ in_prevout c ∉ g.
Proof.
  unfold remove. rewrite filter_In. rewrite negb_true_iff, bool_decide_eq_false. tauto.
Qed.
Lemma same_place l c d : base.NoDup (outpoints l) -> In c l -> In d l -> in_prevout c = in_prevout d -> c = d.
Proof.
  intros ND. induction l as [|x r IH]; intros Hc Hd E; [contradiction|].
  cbn in ND. apply NoDup_cons in ND as [N1 N2].
  destruct Hc as [->|Hc], Hd as [->|Hd]; auto.
  - exfalso. apply N1. apply in_outpoints. eauto.
  - exfalso. apply N1. apply in_outpoints. eauto.
Qed.
Lemma nodup_of_outpoints l : base.NoDup (outpoints l) -> base.NoDup l.
Proof. intros. unfold outpoints in *. now apply NoDup_fmap_1 in H. Qed.

Section P.
  Variable sha : bytes -> hash.
  Variable pub_of : N -> N.
  Variable ssign : N -> hash -> N.
  Notation inv := (inv sha).
  Notation kinv := (kinv sha pub_of).
  Notation hash_of := (input_hash sha).

  (* wallets without a seed range *)
  Definition plain (w : wallet) : Prop := w_from w = w_to w.
  Lemma plain_seeds w : plain w -> unused_seeds sha w = [].
  Proof. unfold plain. intros E. unfold unused_seeds. apply seed_coins_empty. lia. Qed.
  Lemma plain_same w w' : same_coins w w' -> plain w -> plain w'.
  Proof. unfold plain. intros (?&?&?&?&?&?&?). congruence. Qed.
  Lemma drop_used_range n : forall w, w_from (drop_used n w) = w_from w /\ w_to (drop_used n w) = w_to w.
  Proof.
    induction n as [|n IH]; intros w; cbn [drop_used]; [auto|]. destruct (w_queue w); [auto|].
    destruct (IH (with_coins w (sub64 (w_balance w) (coin_value i)) (us_erase i (w_utxos w)) (w_from w) l)) as [E1 E2].
    rewrite E1, E2. cbn. auto.
  Qed.
  Lemma accumulate_plain w a w' o : plain w -> w_to w < 2 ^ 64 -> accumulate_inputs sha w a = (w', o) -> plain w'.
  Proof.
    unfold plain. intros E B H. unfold accumulate_inputs, seeds_left in H. rewrite E in H.
    rewrite sub64_small in H by lia. rewrite N.sub_diag in H. cbn [N.to_nat take_seeds] in H.
    destruct (take_queue _ _ _) as [us t]. destruct (t <? a); injection H as <- <-; [exact E|].
    destruct (drop_used_range (length us) (with_coins w (w_balance w) (w_utxos w) (w_to w) (w_queue w))) as [E1 E2].
    rewrite E1, E2. reflexivity.
  Qed.
  Lemma change_plain (w1 : wallet) b amount t rnd w2 (os : list output) : plain w1 ->
    (if (b : bool) then let '(w2, pk) := generate_key sha pub_of w1 rnd in (w2, [Output (commit_of sha pk) (sub64 t amount)])
     else (w1, [])) = (w2, os) -> plain w2.
  Proof.
    intros Pl H. destruct b.
    - pose proof (same_gen sha pub_of w1 rnd) as S. destruct (generate_key sha pub_of w1 rnd) as [w3 pk]. injection H as <- <-.
      eapply plain_same; eauto.
    - now injection H as <- <-.
  Qed.
  Lemma send_to_plain w a p s r w' o : plain w -> w_to w < 2 ^ 64 ->
    send_to sha pub_of ssign w a p s r = (w', o) -> plain w'.
  Proof.
    intros Pl B H. unfold send_to in H. destruct (accumulate_inputs sha w a) as [w1 [[[ins wits] t]|]] eqn:A.
    - pose proof (accumulate_plain _ _ _ _ Pl B A) as P1.
      destruct (a <? t).
      + pose proof (same_gen sha pub_of w1 r) as S. destruct (generate_key sha pub_of w1 r) as [w3 pk].
        injection H as <- <-. eapply plain_same; eauto.
      + now injection H as <- <-.
    - injection H as <- <-. eapply accumulate_plain; eauto.
  Qed.
  Lemma fan_plain w n v p s r w' o : plain w -> w_to w < 2 ^ 64 ->
    fan sha pub_of ssign w n v p s r = (w', o) -> plain w'.
  Proof.
    intros Pl B H. unfold fan in H. destruct (accumulate_inputs sha w _) as [w1 [[[ins wits] t]|]] eqn:A.
    - pose proof (accumulate_plain _ _ _ _ Pl B A) as P1.
      destruct (mul64 n v <? t).
      + pose proof (same_gen sha pub_of w1 r) as S. destruct (generate_key sha pub_of w1 r) as [w3 pk].
        injection H as <- <-. eapply plain_same; eauto.
      + now injection H as <- <-.
    - injection H as <- <-. eapply accumulate_plain; eauto.
  Qed.
  Lemma credit_one_plain w i : plain w -> plain (credit_one w i).
  Proof. unfold plain, credit_one, us_insert. destruct (us_mem i _); cbn; auto. Qed.
  Lemma debit_one_plain w i : plain w -> plain (debit_one w i).
  Proof. unfold plain, debit_one. destruct (us_mem i _); cbn; auto. Qed.
  Lemma update_plain w cr db : plain w -> plain (fst (update_balance w cr db)).
  Proof.
    intros Pl. unfold update_balance. cbn [fst].
    assert (P1 : plain (fold_left credit_one cr w)) by (revert w Pl; induction cr; intros; cbn; auto using credit_one_plain).
    revert P1. generalize (fold_left credit_one cr w). clear. intros w. revert w.
    induction db; intros; cbn; auto using debit_one_plain.
  Qed.

  (** The invariant, with the coins the wallet holds in view. *)
  Record cinv (c : client) (b : books) (held : list input) : Prop := {
    v_inv : inv (cl_wallet c) held;
    v_kinv : kinv (cl_wallet c);
    v_plain : plain (cl_wallet c);
    v_own : Permutation (b_own b) (held ++ b_tied b);
    v_nodup : base.NoDup (outpoints (b_own b));
    v_bound : bounded sha b;
    v_spend : forall (h : N) i, cl_spend c !! h = Some i <-> In i (b_tied b) /\ h = hash_of i;
    v_txs : cl_txs c = b_sent b;
    v_inputs : cl_inputs c = b_expected b;
    v_sent : forall id tx, b_sent b !! id = Some tx -> tx_id sha tx = id;
    v_expected : forall id i, b_expected b !! id = Some i -> op_txid (in_prevout i) = id;
    v_gone : forall p, p ∈ outpoints (b_own b) -> p ∉ b_gone b }.

  Lemma tied_own c b held i : cinv c b held -> In i (b_tied b) -> In i (b_own b).
  Proof. intros V H. apply (Permutation_in _ (Permutation_sym (v_own _ _ _ V))). apply in_app_iff. auto. Qed.
  Lemma held_own c b held i : cinv c b held -> In i held -> In i (b_own b).
  Proof. intros V H. apply (Permutation_in _ (Permutation_sym (v_own _ _ _ V))). apply in_app_iff. auto. Qed.
  Lemma held_tied c b held p : cinv c b held -> p ∈ outpoints held -> p ∈ outpoints (b_tied b) -> False.
  Proof.
    intros V H1 H2. pose proof (v_nodup _ _ _ V) as ND. rewrite (outpoints_perm _ _ (v_own _ _ _ V)), outpoints_app in ND.
    apply NoDup_app in ND as (_ & D & _). now apply (D p).
  Qed.
  Lemma same_hash b i j : bounded sha b -> In i (b_own b) -> In j (b_own b) -> hash_of i = hash_of j -> i = j.
  Proof.
    intros [_ ND]. generalize dependent (b_own b). intros l ND. induction l as [|x r IH]; intros Hi Hj E; [contradiction|].
    cbn in ND. apply NoDup_cons in ND as [N1 N2].
    destruct Hi as [->|Hi], Hj as [->|Hj]; auto; exfalso; apply N1; apply elem_of_list_In, in_map_iff; eauto.
  Qed.
  Lemma held_worth c b held : cinv c b held -> worth held + worth (b_tied b) = worth (b_own b).
  Proof. intros V. now rewrite (worth_perm _ _ (v_own _ _ _ V)), worth_app. Qed.

  Lemma m_erase_all_lookup {V} ks : forall (m : gmap N V) (h : N) v,
    m_erase_all ks m !! h = Some v <-> m !! h = Some v /\ ~ In h ks.
  Proof.
    unfold m_erase_all. induction ks as [|k r IH]; intros m h v; cbn [fold_left In]; [tauto|].
    rewrite IH. destruct (decide (k = h)) as [->|NE].
    - rewrite lookup_delete. split; [intros [? _]; discriminate|intros [_ H]; exfalso; apply H; now left].
    - rewrite lookup_delete_ne by auto. tauto.
  Qed.
  Lemma register_lookup ins : forall (m : gmap N input) (h : N) v,
    (forall i, In i ins -> m !! (hash_of i : N) = None) -> base.NoDup (map hash_of ins) ->
    fold_left (fun m i => m_insert m (hash_of i) i) ins m !! h = Some v <->
    m !! h = Some v \/ (In v ins /\ h = hash_of v).
  Proof.
    induction ins as [|i r IH]; intros m h v HN ND; cbn [fold_left In]; [tauto|].
    cbn in ND. apply NoDup_cons in ND as [N1 N2].
    assert (EM : m_insert m (hash_of i) i = <[(hash_of i : N) := i]> m).
    { unfold m_insert. now rewrite (HN i (or_introl eq_refl)). }
    rewrite EM. rewrite IH; [|clear IH|auto].
    - destruct (decide (hash_of i = h)) as [<-|NE].
      + rewrite lookup_insert. rewrite (HN i) by now left. split.
        * intros [[= <-]|[H E]]; [auto|]. exfalso. apply N1. apply elem_of_list_In, in_map_iff. exists v. auto.
        * intros [H|[[->|H] E]]; [discriminate|auto|]. exfalso. apply N1. apply elem_of_list_In, in_map_iff. exists v. auto.
      + rewrite lookup_insert_ne by auto. split.
        * intros [H|[H E]]; auto.
        * intros [H|[[->|H] E]]; [auto|congruence|auto].
    - intros j Hj. rewrite lookup_insert_ne; [apply HN; now right|].
      intros E. apply N1. rewrite E. apply elem_of_list_In, in_map_iff. eauto.
  Qed.

  (* making a transaction *)
  Lemma made_inv c b held w ins tx : cinv c b held -> spends sha pub_of (cl_wallet c) held w ins -> plain w ->
    tx_inputs tx = ins ->
    cinv (register_inputs sha (with_wallet c w) ins)
         (Books (b_own b) (ins ++ b_tied b) (b_gone b) (b_sent b) (b_expected b))
         (remove (outpoints ins) held).
  Proof.
    intros V SP Pl _. pose proof (sp_perm _ _ _ _ _ _ SP) as P.
    assert (P2 : Permutation (b_own b) (remove (outpoints ins) held ++ ins ++ b_tied b)).
    { rewrite (v_own _ _ _ V). rewrite P at 1. rewrite app_assoc. apply Permutation_app_tail. apply Permutation_app_comm. }
    assert (IO : forall i, In i ins -> In i held).
    { intros i Hi. apply (Permutation_in _ (Permutation_sym P)). apply in_app_iff. auto. }
    split; cbn [cl_wallet cl_txs cl_inputs cl_spend b_own b_tied b_gone b_sent b_expected register_inputs with_wallet].
    - apply SP.
    - apply SP.
    - exact Pl.
    - exact P2.
    - apply (v_nodup _ _ _ V).
    - exact (v_bound _ _ _ V).
    - intros h i. rewrite register_lookup.
      + rewrite (v_spend _ _ _ V), in_app_iff. tauto.
      + intros j Hj. destruct (cl_spend c !! (hash_of j : N)) as [x|] eqn:E; [|reflexivity]. exfalso.
        apply (v_spend _ _ _ V) in E as [Hx E].
        assert (j = x) by (eapply same_hash; [apply (v_bound _ _ _ V)|eapply held_own; eauto|eapply tied_own; eauto|auto]).
        subst x. apply (held_tied _ _ _ (in_prevout j) V); apply in_outpoints; eauto.
      + destruct (v_bound _ _ _ V) as [_ ND]. rewrite P2 in ND. rewrite map_app, NoDup_app in ND.
        destruct ND as (_ & _ & ND). rewrite map_app, NoDup_app in ND. tauto.
    - apply (v_txs _ _ _ V).
    - apply (v_inputs _ _ _ V).
    - apply (v_sent _ _ _ V).
    - apply (v_expected _ _ _ V).
    - apply (v_gone _ _ _ V).
  Qed.

  Lemma cinv_wallet c b held w : cinv c b held -> inv w held -> kinv w -> plain w -> cinv (with_wallet c w) b held.
  Proof. intros [] I K Pl. split; cbn; auto. Qed.

  Lemma received_txid w tx i : In i (received sha w tx) -> op_txid (in_prevout i) = tx_id sha tx.
  Proof. rewrite <- own_outputs_received. unfold own_outputs. intros H. now apply outputs_from_in in H as [? _]. Qed.

  Lemma first_kept_lookup {V} (m : gmap N V) k v k' v' : first_kept m k v !! k' = Some v' ->
    m !! k' = Some v' \/ (k' = k /\ v' = v).
  Proof.
    unfold first_kept. destruct (m !! k) eqn:E; [auto|]. destruct (decide (k = k')) as [<-|NE].
    - rewrite lookup_insert. intros [= <-]. auto.
    - rewrite lookup_insert_ne by auto. auto.
  Qed.
  Lemma import_inv c b held tx : cinv c b held ->
    cinv (import_transaction sha c tx)
         (Books (b_own b) (b_tied b) (b_gone b) (first_kept (b_sent b) (tx_id sha tx) tx) (b_expected b)) held.
  Proof.
    intros []. split; cbn; auto.
    - rewrite first_kept_insert. congruence.
    - intros id t H. apply first_kept_lookup in H as [H|[-> ->]]; auto.
  Qed.

  (* confirming *)
  Lemma bounded_le b own' : worth own' <= worth (b_own b) -> bounded sha b -> worth own' < 2 ^ 64.
  Proof. intros L [B _]. lia. Qed.

  (* the invariant without the bound *)
  Lemma confirm_sent_inv c b held id : cinv c b held ->
    (forall tx, b_sent b !! id = Some tx ->
           spends_tied sha b tx /\
           (forall i, In i (received sha (cl_wallet c) tx) -> not_again b i) /\
           (forall i, In i (tx_inputs tx) -> op_txid (in_prevout i) <> tx_id sha tx)) ->
    bounded sha (settle_sent sha (cl_wallet c) b id) ->
    exists held', cinv (fst (confirm_sent sha c id)) (settle_sent sha (cl_wallet c) b id) held'.
  Proof.
    intros V M BD. unfold confirm_sent, settle_sent in *. rewrite (v_txs _ _ _ V).
    destruct (b_sent b !! id) as [tx|] eqn:E; [|exists held; exact V].
    destruct (M tx eq_refl) as (M1 & M2 & M3). clear M.
    set (rc := received sha (cl_wallet c) tx) in *. set (places := outpoints (tx_inputs tx)) in *.
    assert (P : Permutation (fold_left credit rc (b_own b)) (fold_left credit rc held ++ b_tied b)).
    { apply credits_perm; [apply (v_own _ _ _ V)|]. intros i Hi. apply (M2 i Hi). }
    assert (HI : forall i, In i (tx_inputs tx) -> in_prevout i ∉ outpoints (fold_left credit rc held)).
    { intros i Hi H. apply credits_in in H as [H|H].
      - destruct (M1 i Hi) as [T _].
        assert (Ti : In i (b_tied b)).
        { apply T. rewrite (outpoints_perm _ _ (v_own _ _ _ V)), outpoints_app, elem_of_app. auto. }
        apply (held_tied _ _ _ (in_prevout i) V H). apply in_outpoints. eauto.
      - apply in_outpoints in H as (d & Hd & Ed). apply received_txid in Hd. apply (M3 i Hi). congruence. }
    assert (RH : remove places (fold_left credit rc held) = fold_left credit rc held).
    { apply remove_notin. intros p Hp. apply in_outpoints in Hp as (i & Hi & <-). auto. }
    assert (P2 : Permutation (remove places (fold_left credit rc (b_own b)))
                             (fold_left credit rc held ++ remove places (b_tied b))).
    { rewrite (remove_perm _ _ _ P), remove_app, RH. reflexivity. }
    assert (W : worth (fold_left credit rc held) < 2 ^ 64).
    { destruct BD as [BD _]. cbn in BD. rewrite (worth_perm _ _ P2), worth_app in BD. lia. }
    destruct (confirm_inv sha pub_of (cl_wallet c) held rc (tx_inputs tx) (v_inv _ _ _ V) (v_kinv _ _ _ V))
      as (w' & U & I' & K' & _); auto.
    { intros i _. rewrite plain_seeds by apply (v_plain _ _ _ V). apply not_elem_of_nil. }
    exists (fold_left credit rc held). cbn [fst].
    assert (EW : confirm_transaction sha (cl_wallet c) tx = (w', true)).
    { unfold confirm_transaction. rewrite own_outputs_received. exact U. }
    rewrite EW. cbn [fst].
    split; cbn [cl_wallet cl_txs cl_inputs cl_spend b_own b_tied b_gone b_sent b_expected]; auto.
    - pose proof (update_plain _ rc (tx_inputs tx) (v_plain _ _ _ V)) as Q. now rewrite U in Q.
    - apply remove_nodup, credits_nodup, (v_nodup _ _ _ V).
    - intros h i. rewrite m_erase_all_lookup, (v_spend _ _ _ V), in_remove. split.
      + intros [[H ->] N]. split; [|auto]. split; [auto|]. intros Hp.
        apply in_outpoints in Hp as (j & Hj & Ej). destruct (M1 j Hj) as [T _].
        assert (Tj : In j (b_tied b)).
        { apply T. rewrite Ej. apply in_outpoints. exists i. split; [|auto]. eapply tied_own; eauto. }
        assert (j = i).
        { eapply same_place; [apply (v_nodup _ _ _ V)|eapply tied_own; eauto|eapply tied_own; eauto|auto]. }
        subst j. apply N. apply in_map_iff. eauto.
      + intros [[H N] ->]. split; [auto|]. intros Hh. apply in_map_iff in Hh as (j & Ej & Hj).
        destruct (M1 j Hj) as [_ T]. assert (j = i) by auto. subst j. apply N. apply in_outpoints. eauto.
    - apply (v_inputs _ _ _ V).
    - intros id' t H. apply lookup_delete_Some in H as [_ H]. now apply (v_sent _ _ _ V).
    - apply (v_expected _ _ _ V).
    - intros p Hp. apply remove_in in Hp as [Hp N]. rewrite not_elem_of_app. split; [exact N|].
      apply credits_in in Hp as [Hp|Hp]; [now apply (v_gone _ _ _ V)|].
      apply in_outpoints in Hp as (d & Hd & <-). apply (M2 d Hd).
  Qed.

  Lemma confirm_expected_inv c b held id : cinv c b held ->
    (forall i, b_expected b !! id = Some i -> not_again b i) ->
    bounded sha (settle_expected b id) ->
    exists held', cinv (fst (confirm_expected c id)) (settle_expected b id) held'.
  Proof.
    intros V M BD. unfold confirm_expected, settle_expected in *. rewrite (v_inputs _ _ _ V).
    destruct (b_expected b !! id) as [i|] eqn:E; [|exists held; exact V].
    destruct (M i eq_refl) as [M1 M2].
    assert (P : Permutation (credit (b_own b) i) (credit held i ++ b_tied b)).
    { apply credit_perm; [apply (v_own _ _ _ V)|exact M1]. }
    assert (W : worth (fold_left credit [i] held) < 2 ^ 64).
    { destruct BD as [BD _]. cbn [b_own] in BD. cbn [fold_left]. rewrite (worth_perm _ _ P), worth_app in BD. lia. }
    destruct (confirm_inv sha pub_of (cl_wallet c) held [i] [] (v_inv _ _ _ V) (v_kinv _ _ _ V))
      as (w' & U & I' & K' & _); auto.
    { intros j _. rewrite plain_seeds by apply (v_plain _ _ _ V). apply not_elem_of_nil. }
    exists (credit held i). cbn [fst]. unfold confirm_inputs. rewrite U. cbn [fst].
    split; cbn [cl_wallet cl_txs cl_inputs cl_spend b_own b_tied b_gone b_sent b_expected]; auto.
    - pose proof (update_plain _ [i] [] (v_plain _ _ _ V)) as Q. now rewrite U in Q.
    - apply credit_nodup, (v_nodup _ _ _ V).
    - apply (v_spend _ _ _ V).
    - apply (v_txs _ _ _ V).
    - apply (v_sent _ _ _ V).
    - intros id' t H. apply lookup_delete_Some in H as [_ H]. now apply (v_expected _ _ _ V).
    - intros p Hp. apply (credits_in [i]) in Hp as [Hp|Hp]; [now apply (v_gone _ _ _ V)|].
      cbn in Hp. apply elem_of_list_singleton in Hp as ->. exact M2.
  Qed.

  (* between the two halves *)
  Lemma between_halves c b held id : cinv c b held ->
    (forall tx, b_sent b !! id = Some tx ->
           (forall i, In i (tx_inputs tx) -> op_txid (in_prevout i) <> tx_id sha tx)) ->
    (forall i, b_expected b !! id = Some i -> not_again b i) ->
    forall i, b_expected (settle_sent sha (cl_wallet c) b id) !! id = Some i ->
      not_again (settle_sent sha (cl_wallet c) b id) i.
  Proof.
    intros V M1 M2 i. unfold settle_sent. destruct (b_sent b !! id) as [tx|] eqn:E; [|apply M2].
    cbn [b_expected]. intros H. destruct (M2 i H) as [A B]. split; cbn [b_tied b_gone].
    - rewrite remove_in. tauto.
    - rewrite not_elem_of_app. split; [|exact B]. intros Hp. apply in_outpoints in Hp as (j & Hj & Ej).
      apply (M1 tx eq_refl j Hj). rewrite Ej, (v_expected _ _ _ V _ _ H), (v_sent _ _ _ V _ _ E). reflexivity.
  Qed.
  Lemma map_nodup_incl (a b : list input) : (exists c, Permutation b (a ++ c)) ->
    base.NoDup (map hash_of b) -> base.NoDup (map hash_of a).
  Proof. intros [c P] ND. rewrite P, map_app, NoDup_app in ND. tauto. Qed.
  Lemma bounded_before b id : bounded sha (settle_expected b id) -> bounded sha b.
  Proof.
    unfold settle_expected. destruct (b_expected b !! id) as [i|]; [|auto]. intros [B1 B2]. cbn [b_own] in *. split.
    - eapply N.le_lt_trans; [apply worth_credit|exact B1].
    - eapply map_nodup_incl; [|exact B2]. unfold credit. case_bool_decide; [exists []; now rewrite app_nil_r|].
      exists [i]. apply Permutation_cons_append.
  Qed.
  Lemma confirm_step c b held id : cinv c b held -> client_meant sha c b (CConfirm id) ->
    bounded sha (settle_expected (settle_sent sha (cl_wallet c) b id) id) ->
    exists held', cinv (fst (confirm_tx sha c id)) (settle_expected (settle_sent sha (cl_wallet c) b id) id) held'.
  Proof.
    intros V [M1 M2] BD.
    destruct (confirm_sent_inv c b held id V M1 (bounded_before _ _ BD)) as [h1 V1].
    assert (M3 : forall i, b_expected (settle_sent sha (cl_wallet c) b id) !! id = Some i ->
      not_again (settle_sent sha (cl_wallet c) b id) i).
    { eapply between_halves; eauto. intros tx H. apply (M1 tx H). }
    destruct (confirm_expected_inv _ _ h1 id V1 M3 BD) as [h2 V2].
    exists h2. unfold confirm_tx. destruct (confirm_sent sha c id) as [c1 b1]. cbn [fst] in V2.
    destruct (confirm_expected c1 id) as [c2 b2]. exact V2.
  Qed.

  (* abandoning *)
  Lemma check_pending_spec txs i : check_pending txs i = true <-> spent_by_some txs i.
  Proof.
    unfold check_pending, spent_by_some. rewrite existsb_exists. split.
    - intros ([id tx] & H & E). apply existsb_exists in E as (j & Hj & Ej). apply bool_decide_eq_true in Ej as ->.
      exists id, tx. split; [|exact Hj]. now apply elem_of_list_In, elem_of_map_to_list in H.
    - intros (id & tx & H & Hi). exists (id, tx). split; [now apply elem_of_list_In, elem_of_map_to_list|].
      apply existsb_exists. exists i. split; [exact Hi|]. now apply bool_decide_eq_true.
  Qed.
  (** The loop, for the coins [own] and those tied before it, [tied0]. *)
  Record rinv (own tied0 : list input) (txs : gmap N full_tx) (done : list input)
      (s : wallet * gmap N input) (held tied : list input) : Prop := {
    q_inv : inv (fst s) held;
    q_kinv : kinv (fst s);
    q_plain : plain (fst s);
    q_own : Permutation own (held ++ tied);
    q_spend : forall (h : N) i, snd s !! h = Some i <-> In i tied /\ h = hash_of i;
    q_tied : forall i, In i tied <-> In i tied0 /\ (In i done -> spent_by_some txs i) }.
  Lemma release_inv own tied0 txs ins : forall done s held tied,
    base.NoDup (outpoints own) -> worth own < 2 ^ 64 ->
    (forall i j, In i ins -> In j tied0 -> hash_of i = hash_of j -> i = j) ->
    rinv own tied0 txs done s held tied ->
    exists held' tied', rinv own tied0 txs (done ++ ins) (fold_left (release_input sha txs) ins s) held' tied'.
  Proof.
    induction ins as [|i r IH]; intros done s held tied ND W HH Q.
    { exists held, tied. now rewrite app_nil_r. }
    cbn [fold_left].
    assert (H1 : exists h t, rinv own tied0 txs (done ++ [i]) (release_input sha txs s i) h t).
    { unfold release_input. destruct (snd s !! (hash_of i : N)) as [j|] eqn:E.
      - apply (q_spend _ _ _ _ _ _ _ Q) in E as [Hj Ej].
        assert (i = j).
        { apply HH; [now left| |auto]. now apply (q_tied _ _ _ _ _ _ _ Q). }
        subst j. destruct (check_pending txs i) eqn:C.
        + apply check_pending_spec in C. exists held, tied. destruct Q. split; auto.
          intros j. rewrite q_tied0, in_app_iff. cbn [In]. split; [|tauto].
          intros [A B]. split; [auto|]. intros [D|[<-|[]]]; auto.
        + assert (NC : ~ spent_by_some txs i) by (intros X; apply check_pending_spec in X; congruence).
          assert (HN : in_prevout i ∉ outpoints held).
          { intros Hp. rewrite (outpoints_perm _ _ (q_own _ _ _ _ _ _ _ Q)), outpoints_app, NoDup_app in ND.
            destruct ND as (_ & D & _). apply (D _ Hp). apply in_outpoints. eauto. }
          destruct (in_split _ _ Hj) as (t1 & t2 & ->).
          assert (Cr : credit held i = i :: held) by (unfold credit; now rewrite bool_decide_eq_false_2).
          assert (PO : Permutation own ((i :: held) ++ t1 ++ t2)).
          { rewrite (q_own _ _ _ _ _ _ _ Q). cbn. rewrite <- !Permutation_middle. reflexivity. }
          destruct (confirm_inv sha pub_of (fst s) held [i] [] (q_inv _ _ _ _ _ _ _ Q) (q_kinv _ _ _ _ _ _ _ Q))
            as (w' & U & I' & K' & _).
          { intros x _. rewrite plain_seeds by apply (q_plain _ _ _ _ _ _ _ Q). apply not_elem_of_nil. }
          { intros x []. }
          { cbn [fold_left]. rewrite Cr. rewrite (worth_perm _ _ PO), worth_app in W. lia. }
          cbn [fold_left] in I'. rewrite Cr in I'. unfold confirm_inputs. rewrite U. cbn [fst].
          assert (NDt : base.NoDup (t1 ++ i :: t2)).
          { rewrite (outpoints_perm _ _ (q_own _ _ _ _ _ _ _ Q)), outpoints_app, NoDup_app in ND.
            apply nodup_of_outpoints. tauto. }
          assert (Ni : forall j, In j (t1 ++ t2) <-> In j (t1 ++ i :: t2) /\ j <> i).
          { intros j. rewrite !in_app_iff. cbn [In]. split; [|intros [[?|[?|?]] N]; auto; congruence].
            intros H. split; [tauto|]. intros ->.
            rewrite (Permutation_sym (Permutation_middle _ _ _)) in NDt. apply NoDup_cons in NDt as [X _].
            apply X. apply elem_of_list_In, in_app_iff. tauto. }
          exists (i :: held), (t1 ++ t2). split; cbn [fst snd]; auto.
          * pose proof (update_plain _ [i] [] (q_plain _ _ _ _ _ _ _ Q)) as X. now rewrite U in X.
          * intros h j. rewrite Ni. rewrite lookup_delete_Some, (q_spend _ _ _ _ _ _ _ Q). split.
            -- intros [N [A ->]]. split; [|auto]. split; [auto|]. intros ->. auto.
            -- intros [[A B] ->]. split; [|auto]. intros EH. apply B. symmetry.
               apply HH; [now left| |exact EH]. now apply (q_tied _ _ _ _ _ _ _ Q).
          * intros j. rewrite Ni, (q_tied _ _ _ _ _ _ _ Q), in_app_iff. cbn [In]. split.
            -- intros [[A B] N]. split; [auto|]. intros [D|[D|[]]]; [auto|congruence].
            -- intros [A B]. split; [split; auto|]. intros ->. auto.
      - exists held, tied. destruct Q. split; auto. intros j. rewrite q_tied0, in_app_iff. cbn [In]. split; [|tauto].
        intros [A B]. split; [auto|]. intros [D|[<-|[]]]; [auto|]. exfalso.
        assert (In i tied) by (apply q_tied0; auto).
        assert (snd s !! (hash_of i : N) = Some i) by (apply q_spend0; auto). congruence. }
    destruct H1 as (h1 & t1 & Q1).
    destruct (IH (done ++ [i]) (release_input sha txs s i) h1 t1 ND W) as (h2 & t2 & Q2); auto.
    { intros x j Hx. apply HH. now right. }
    exists h2, t2. now rewrite <- app_assoc in Q2.
  Qed.
  Lemma abandon_step c b held id b' : cinv c b held -> client_meant sha c b (CAbandon id) ->
    entered sha c b (CAbandon id) (CoBool (snd (abandon_transaction sha c id))) b' ->
    exists held', cinv (fst (abandon_transaction sha c id)) b' held'.
  Proof.
    intros V M E. cbn [client_meant entered] in *. unfold abandon_transaction. rewrite (v_txs _ _ _ V).
    destruct (b_sent b !! id) as [tx|] eqn:S; [|subst b'; exists held; exact V].
    specialize (M tx eq_refl). destruct E as (E1 & E2 & E3 & E4 & E5 & E6).
    destruct (release_inv (b_own b) (b_tied b) (delete id (b_sent b)) (tx_inputs tx) [] (cl_wallet c, cl_spend c) held (b_tied b))
      as (h & t & Q).
    - apply (v_nodup _ _ _ V).
    - apply (v_bound _ _ _ V).
    - intros i j Hi. apply (M i Hi).
    - destruct V. split; cbn; auto. intros i. split; [|tauto]. intros; split; [auto|contradiction].
    - cbn [app] in Q. destruct (fold_left _ _ _) as [w sp]. cbn [fst].
      assert (PT : Permutation (b_tied b') t).
      { apply NoDup_Permutation; [exact E5| |].
        - pose proof (v_nodup _ _ _ V) as ND. rewrite (outpoints_perm _ _ (q_own _ _ _ _ _ _ _ Q)), outpoints_app, NoDup_app in ND.
          apply nodup_of_outpoints. tauto.
        - intros i. rewrite !elem_of_list_In, E6, E4. symmetry. apply (q_tied _ _ _ _ _ _ _ Q). }
      assert (IT : forall i, In i (b_tied b') <-> In i t).
      { intros i. split; [apply (Permutation_in _ PT)|apply (Permutation_in _ (Permutation_sym PT))]. }
      exists h. destruct Q; cbn [fst snd] in *. split; cbn; rewrite ?E1, ?E2, ?E3, ?E4; auto.
      + rewrite q_own0. now apply Permutation_app_head.
      + apply (v_nodup _ _ _ V).
      + pose proof (v_bound _ _ _ V) as [B1 B2]. split; rewrite E1; auto.
      + intros x i. rewrite q_spend0, IT. reflexivity.
      + apply (v_inputs _ _ _ V).
      + intros id' x H. apply lookup_delete_Some in H as [_ H]. now apply (v_sent _ _ _ V).
      + apply (v_expected _ _ _ V).
      + apply (v_gone _ _ _ V).
  Qed.

  (* restarting *)
  Lemma lawful_client_file : lawful c_client_file.
  Proof.
    unfold c_client_file. repeat first [apply lawful_pair | apply lawful_map];
      auto using lawful_hash, consuming_hash, lawful_full_tx, lawful_input.
  Qed.
  Lemma restart_step c b held : cinv c b held -> client_typed c ->
    exists c', open_client sha (save_all c) = Some c' /\ cinv c' b held /\
      w_keys (cl_wallet c') = w_keys (cl_wallet c) /\
      (forall x, is_ours (cl_wallet c') x = is_ours (cl_wallet c) x) /\
      cl_txs c' = cl_txs c /\ cl_inputs c' = cl_inputs c /\ cl_spend c' = cl_spend c.
  Proof.
    intros V [T1 T2]. destruct (restart_spec sha pub_of ssign (cl_wallet c) held (v_inv _ _ _ V) (v_kinv _ _ _ V) (v_plain _ _ _ V) T1)
      as (w & L & I & K & EK & EO).
    unfold open_client, save_all. cbn [f_wallet f_client]. rewrite L.
    unfold save_client_state. rewrite ostream_ok. cbn [app].
    match goal with |- context [concat (wr c_client_file ?x)] =>
      change (concat (wr c_client_file x)) with (enc c_client_file x);
      rewrite <- (app_nil_r (enc c_client_file x)); rewrite (l_rt _ lawful_client_file x [] T2) end.
    cbn [valid]. rewrite !list_to_map_to_list. eexists. split; [reflexivity|].
    split; [|cbn; auto].
    destruct V. split; cbn; auto.
    unfold load in L. destruct (dec _ _) as [[? ?] ?| |]; try discriminate. destruct (load_keys _ _) as [[? ?] ?].
    injection L as <-. reflexivity.
  Qed.

  (* one step *)
  Lemma client_step c b held k c' o b' : cinv c b held -> client_meant sha c b k ->
    c_step sha pub_of ssign c k = (c', o) -> entered sha c b k o b' -> bounded sha b' ->
    (exists held', cinv c' b' held') /\ client_fine o.
  Proof.
    intros V M H E BD. pose proof (i_range _ _ _ (v_inv _ _ _ V)) as [_ RB].
    destruct k; cbn [c_step] in H.
    - cbn [entered] in E. subst b'. pose proof (same_gen sha pub_of (cl_wallet c) rnd) as S.
      destruct (generate_key sha pub_of (cl_wallet c) rnd) as [w pk] eqn:G. injection H as <- <-. cbn [fst] in S.
      destruct (gen_spec _ _ ssign _ _ _ _ (v_kinv _ _ _ V) G) as (K1 & S1 & _).
      split; [|repeat split; discriminate]. exists held. apply cinv_wallet; auto.
      + eapply inv_same; eauto. apply V.
      + eapply plain_same; eauto. apply V.
    - unfold mint_new_coins in H. pose proof (same_mint sha pub_of (cl_wallet c) rnds val) as S.
      pose proof (mint_kinv sha pub_of ssign rnds val (cl_wallet c) (v_kinv _ _ _ V)) as K1.
      destruct (mint_outputs sha pub_of (cl_wallet c) rnds val) as [w os]. injection H as <- <-. cbn [fst] in *.
      cbn [entered] in E. subst b'. split; [|repeat split; discriminate]. exists held. apply import_inv. apply cinv_wallet; auto.
      + eapply inv_same; eauto. apply V.
      + eapply plain_same; eauto. apply V.
    - destruct (send_to sha pub_of ssign (cl_wallet c) value payee true rnd) as [w r] eqn:S.
      cbn [client_meant] in M. assert (A : value < 2 ^ 64) by (eapply N.lt_trans; [exact M|reflexivity]).
      pose proof (send_to_plain _ _ _ _ _ _ _ (v_plain _ _ _ V) RB S) as Pl.
      destruct (send_to_spec _ _ _ _ _ _ _ _ _ _ _ (v_inv _ _ _ V) (v_kinv _ _ _ V) A S)
        as [(-> & -> & _)|(ins & ch & w0 & wits & _ & _ & -> & SP & _)]; cbn [made] in H; injection H as <- <-; cbn [entered] in E; subst b'.
      + split; [|repeat split; discriminate]. exists held. apply cinv_wallet; auto; apply V.
      + split; [|repeat split; discriminate]. eexists. cbn [tx_inputs]. eapply made_inv; eauto.
        exact (eq_refl (tx_inputs (FullTx ins [] []))).
    - destruct (fan sha pub_of ssign (cl_wallet c) count value payee true rnd) as [w r] eqn:S.
      cbn [client_meant] in M. assert (A : count * value < 2 ^ 64).
      { destruct M as [M1 M2]. change (2 ^ 64) with (2 ^ 32 * 2 ^ 32). apply N.mul_lt_mono; assumption. }
      pose proof (fan_plain _ _ _ _ _ _ _ _ (v_plain _ _ _ V) RB S) as Pl.
      destruct (fan_spec _ _ _ _ _ _ _ _ _ _ _ _ (v_inv _ _ _ V) (v_kinv _ _ _ V) A S)
        as [(-> & -> & _)|(ins & ch & w0 & wits & _ & _ & -> & SP & _)]; cbn [made] in H; injection H as <- <-; cbn [entered] in E; subst b'.
      + split; [|repeat split; discriminate]. exists held. apply cinv_wallet; auto; apply V.
      + split; [|repeat split; discriminate]. eexists. cbn [tx_inputs]. eapply made_inv; eauto.
        exact (eq_refl (tx_inputs (FullTx ins [] []))).
    - injection H as <- <-. cbn [entered] in E. subst b'. split; [|repeat split; discriminate]. exists held. now apply import_inv.
    - injection H as <- <-. cbn [entered] in E. subst b'. split; [|repeat split; discriminate]. exists held. unfold is_spendable.
      destruct (is_ours (cl_wallet c) (out_commit (in_data i))); [|exact V].
      destruct V. split; cbn; auto.
      + rewrite first_kept_insert. congruence.
      + intros id x HX. apply first_kept_lookup in HX as [HX|[-> ->]]; auto.
    - destruct (confirm_step c b held id V M) as [h V'].
      { cbn [entered] in E. now subst b'. }
      cbn [entered] in E. subst b'. destruct (confirm_tx sha c id) as [c1 r]. injection H as <- <-.
      split; [eauto|repeat split; discriminate].
    - pose proof (abandon_step c b held id b' V M) as A.
      destruct (abandon_transaction sha c id) as [c1 r]. injection H as <- <-. split; [|repeat split; discriminate].
      apply A. exact E.
    - cbn [client_meant] in M. destruct (restart_step c b held V M) as (c1 & O & V1 & _). rewrite O in H. injection H as <- <-.
      cbn [entered] in E. subst b'. split; [eauto|repeat split; discriminate].
  Qed.

  Lemma cinv_new : cinv cl_new b_new [].
  Proof.
    split; cbn; auto.
    - apply inv_empty.
    - apply kinv_empty.
    - reflexivity.
    - constructor.
    - split; [reflexivity|constructor].
    - intros h i. rewrite lookup_empty. split; [discriminate|intros [[] _]].
    - intros id tx H. rewrite lookup_empty in H. discriminate.
    - intros id tx H. rewrite lookup_empty in H. discriminate.
    - intros p H. now apply elem_of_nil in H.
  Qed.
  Lemma history_cinv c b ks c' b' : client_history sha pub_of ssign c b ks c' b' ->
    forall held, cinv c b held -> exists held', cinv c' b' held'.
  Proof.
    induction 1 as [|c b k c1 o b1 ks c2 b2 M S E B H IH]; intros held V; [eauto|].
    destruct (client_step _ _ _ _ _ _ _ V M S E B) as [[h V1] _]. eauto.
  Qed.
  Lemma after_cinv ks c b : client_after sha pub_of ssign ks c b -> exists held, cinv c b held.
  Proof. intros H. eapply history_cinv; [exact H|apply cinv_new]. Qed.

  Lemma cinv_agrees c b held : cinv c b held -> agrees c b.
  Proof.
    intros V. split; [intros i; apply (tied_own _ _ _ _ V)|].
    assert (NDt : base.NoDup (b_tied b)).
    { apply nodup_of_outpoints. pose proof (v_nodup _ _ _ V) as ND.
      rewrite (outpoints_perm _ _ (v_own _ _ _ V)), outpoints_app, NoDup_app in ND. tauto. }
    split; [unfold cl_balance; rewrite (balance_held sha pub_of ssign _ _ (v_inv _ _ _ V)); eapply held_worth; eauto|].
    split.
    - intros L. pose proof (Permutation_length (v_own _ _ _ V)) as PL. rewrite app_length in PL.
      unfold cl_count. unfold len in *. rewrite (count_held sha _ _ (v_inv _ _ _ V)); unfold len; lia.
    - split; [apply (v_nodup _ _ _ V)|]. split; [exact NDt|]. split; [apply (v_gone _ _ _ V)|]. split; apply V.
  Qed.
  Lemma client_accounting ks c b : client_after sha pub_of ssign ks c b -> agrees c b.
  Proof. intros H. destruct (after_cinv _ _ _ H) as [h V]. eapply cinv_agrees; eauto. Qed.
  Lemma client_well ks c b k c' o b' : client_after sha pub_of ssign ks c b -> client_meant sha c b k ->
    c_step sha pub_of ssign c k = (c', o) -> entered sha c b k o b' -> bounded sha b' -> client_fine o.
  Proof. intros H M S E B. destruct (after_cinv _ _ _ H) as [h V]. eapply client_step; eauto. Qed.

  (* making a transaction, seen from outside *)
  Lemma spends_fresh c b held w ins outs wits : cinv c b held -> spends sha pub_of (cl_wallet c) held w ins ->
    worth ins = total (map out_value outs) -> fresh_spend b (FullTx ins outs wits).
  Proof.
    intros V SP T. pose proof (sp_perm _ _ _ _ _ _ SP) as P.
    assert (IH : forall i, In i ins -> In i held).
    { intros i Hi. apply (Permutation_in _ (Permutation_sym P)). apply in_app_iff. auto. }
    split; [|split]; cbn [tx_inputs].
    - apply nodup_of_outpoints. pose proof (i_nodup _ _ _ (v_inv _ _ _ V)) as ND.
      rewrite (outpoints_perm _ _ P), outpoints_app, NoDup_app in ND. tauto.
    - intros i Hi. split; [eapply held_own; eauto|]. intros Ht.
      apply (held_tied _ _ _ (in_prevout i) V); apply in_outpoints; eauto.
    - exact T.
  Qed.
  Lemma client_create ks c b v payee rnd c' o : client_after sha pub_of ssign ks c b -> v < 2 ^ 32 ->
    c_step sha pub_of ssign c (CCreate v payee rnd) = (c', o) ->
    (o = CoTx NoTx /\ c' = c /\ cl_balance c < v) \/
    exists tx change, o = CoTx (Built tx) /\ fresh_spend b tx /\
      tx_outputs tx = Output (get_p2pk_witness_commitment sha payee) v :: change /\
      change_ok (cl_wallet c') change /\
      cl_balance c' + total (in_values tx) = cl_balance c.
  Proof.
    intros H L S. destruct (after_cinv _ _ _ H) as [held V]. cbn [c_step] in S.
    destruct (send_to sha pub_of ssign (cl_wallet c) v payee true rnd) as [w r] eqn:ST.
    assert (A : v < 2 ^ 64) by (eapply N.lt_trans; [exact L|reflexivity]).
    pose proof (balance_held sha pub_of ssign _ _ (v_inv _ _ _ V)) as B.
    destruct (send_to_spec _ _ _ _ _ _ _ _ _ _ _ (v_inv _ _ _ V) (v_kinv _ _ _ V) A ST)
      as [(-> & -> & Lw)|(ins & ch & w0 & wits & _ & _ & -> & SP & CO & T)]; cbn [made] in S; injection S as <- <-.
    - left. split; [reflexivity|]. split; [now destruct c|]. unfold cl_balance. lia.
    - right. exists (FullTx ins (Output (commit_of sha payee) v :: ch) wits), ch.
      split; [reflexivity|]. split; [eapply spends_fresh; eauto|]. split; [reflexivity|]. split; [exact CO|].
      unfold cl_balance. cbn [cl_wallet register_inputs with_wallet].
      rewrite B, (balance_held sha pub_of ssign _ _ (sp_inv _ _ _ _ _ _ SP)).
      rewrite (worth_perm _ _ (sp_perm _ _ _ _ _ _ SP)), worth_app.
      change (total (in_values (FullTx ins (Output (commit_of sha payee) v :: ch) wits))) with (worth ins). lia.
  Qed.
  Lemma client_fan ks c b n v payee rnd c' o : client_after sha pub_of ssign ks c b -> n < 2 ^ 32 -> v < 2 ^ 32 ->
    c_step sha pub_of ssign c (CFan n v payee rnd) = (c', o) ->
    (o = CoTx NoTx /\ c' = c /\ cl_balance c < n * v) \/
    exists tx change, o = CoTx (Built tx) /\ fresh_spend b tx /\
      tx_outputs tx = change ++ repeat (Output (get_p2pk_witness_commitment sha payee) v) (N.to_nat n) /\
      change_ok (cl_wallet c') change /\
      cl_balance c' + total (in_values tx) = cl_balance c.
  Proof.
    intros H L1 L2 S. destruct (after_cinv _ _ _ H) as [held V]. cbn [c_step] in S.
    destruct (fan sha pub_of ssign (cl_wallet c) n v payee true rnd) as [w r] eqn:ST.
    assert (A : n * v < 2 ^ 64) by (change (2 ^ 64) with (2 ^ 32 * 2 ^ 32); apply N.mul_lt_mono; assumption).
    pose proof (balance_held sha pub_of ssign _ _ (v_inv _ _ _ V)) as B.
    destruct (fan_spec _ _ _ _ _ _ _ _ _ _ _ _ (v_inv _ _ _ V) (v_kinv _ _ _ V) A ST)
      as [(-> & -> & Lw)|(ins & ch & w0 & wits & _ & _ & -> & SP & CO & T)]; cbn [made] in S; injection S as <- <-.
    - left. split; [reflexivity|]. split; [now destruct c|]. unfold cl_balance. lia.
    - right. eexists _, ch.
      split; [reflexivity|].
      split; [eapply spends_fresh; [exact V|exact SP|rewrite map_app, total_app, total_repeat, N2Nat.id; first [assumption|lia]]|].
      split; [reflexivity|]. split; [exact CO|].
      unfold cl_balance. cbn [cl_wallet register_inputs with_wallet].
      rewrite B, (balance_held sha pub_of ssign _ _ (sp_inv _ _ _ _ _ _ SP)).
      rewrite (worth_perm _ _ (sp_perm _ _ _ _ _ _ SP)), worth_app. unfold in_values. cbn [tx_inputs].
      unfold worth, coin_value. lia.
  Qed.

  (* settling, seen from outside *)
  Lemma history_app c b ks c1 b1 k c2 o b2 : client_history sha pub_of ssign c b ks c1 b1 ->
    client_meant sha c1 b1 k -> c_step sha pub_of ssign c1 k = (c2, o) -> entered sha c1 b1 k o b2 -> bounded sha b2 ->
    client_history sha pub_of ssign c b (ks ++ [k]) c2 b2.
  Proof. induction 1; intros; cbn [app]; econstructor; eauto. constructor. Qed.

  Lemma worth_filter_split f l : worth (List.filter f l) + worth (List.filter (fun x => negb (f x)) l) = worth l.
  Proof. induction l as [|x r IH]; cbn; [reflexivity|]. destruct (f x); cbn; rewrite !worth_cons; lia. Qed.

  Lemma client_confirm ks c b id tx c' o b' : client_after sha pub_of ssign ks c b ->
    client_meant sha c b (CConfirm id) -> c_step sha pub_of ssign c (CConfirm id) = (c', o) ->
    entered sha c b (CConfirm id) o b' -> bounded sha b' ->
    b_sent b !! id = Some tx -> b_expected b !! id = None ->
    base.NoDup (outpoints (received sha (cl_wallet c) tx ++ b_own b)) ->
    o = CoBool true /\
    cl_balance c' = cl_balance c + worth (received sha (cl_wallet c) tx) /\
    cl_txs c' !! id = None /\
    (forall i, In i (tx_inputs tx) -> in_prevout i ∉ outpoints (b_own b')).
  Proof.
    intros H M S E BD HS HX ND. destruct (after_cinv _ _ _ H) as [held V].
    destruct (client_step _ _ _ _ _ _ _ V M S E BD) as [[held' V'] _].
    destruct (cinv_agrees _ _ _ V) as (_ & B1 & _). destruct (cinv_agrees _ _ _ V') as (_ & B2 & _).
    cbn [entered] in E. unfold settle_sent in E. rewrite HS in E. unfold settle_expected in E. cbn [b_expected] in E.
    rewrite HX in E. subst b'. cbn [b_own b_tied] in *.
    set (rc := received sha (cl_wallet c) tx) in *. set (pl := outpoints (tx_inputs tx)) in *.
    destruct (credits_fresh rc (b_own b) ND) as [W PO].
    destruct M as [M _]. destruct (M tx HS) as (M1 & M2 & M3).
    assert (RC : remove pl rc = rc).
    { apply remove_none. intros d Hd Hp. apply in_outpoints in Hp as (i & Hi & Ei). apply (M3 i Hi).
      apply received_txid in Hd. congruence. }
    assert (P : Permutation (fold_left credit rc (b_own b)) (fold_left credit rc held ++ b_tied b)).
    { apply credits_perm; [apply (v_own _ _ _ V)|]. intros i Hi. apply (M2 i Hi). }
    assert (HI : forall i, In i (tx_inputs tx) -> in_prevout i ∉ outpoints (fold_left credit rc held)).
    { intros i Hi HH. apply credits_in in HH as [HH|HH].
      - destruct (M1 i Hi) as [T _].
        assert (Ti : In i (b_tied b)).
        { apply T. rewrite (outpoints_perm _ _ (v_own _ _ _ V)), outpoints_app, elem_of_app. auto. }
        apply (held_tied _ _ _ (in_prevout i) V HH). apply in_outpoints. eauto.
      - apply in_outpoints in HH as (d & Hd & Ed). apply received_txid in Hd. apply (M3 i Hi). congruence. }
    assert (RH : remove pl (fold_left credit rc held) = fold_left credit rc held).
    { apply remove_notin. intros p Hp. apply in_outpoints in Hp as (i & Hi & <-). auto. }
    split; [|split; [|split]].
    - cbn [c_step] in S. unfold confirm_tx, confirm_sent in S. rewrite (v_txs _ _ _ V), HS in S.
      destruct (confirm_expected _ id) as [c2 b2]. now injection S as <- <-.
    - assert (W2 : worth (remove pl (fold_left credit rc (b_own b))) = worth (fold_left credit rc held) + worth (remove pl (b_tied b))).
      { rewrite (worth_perm _ _ (remove_perm pl _ _ P)), remove_app, RH, worth_app. reflexivity. }
      assert (W3 : worth (fold_left credit rc held) = worth rc + worth held).
      { assert (NDh : base.NoDup (outpoints (rc ++ held))).
        { rewrite outpoints_app, NoDup_app in ND |- *. destruct ND as (N1 & N2 & N3). split; [exact N1|].
          split; [|apply (i_nodup _ _ _ (v_inv _ _ _ V))]. intros p Hp Hq. apply (N2 p Hp).
          rewrite (outpoints_perm _ _ (v_own _ _ _ V)), outpoints_app, elem_of_app. auto. }
        destruct (credits_fresh rc held NDh) as [W4 _]. lia. }
      pose proof (held_worth _ _ _ V). lia.
    - rewrite (v_txs _ _ _ V'). cbn [b_sent]. apply lookup_delete.
    - intros i Hi Hp. apply remove_in in Hp as [_ N]. apply N. apply in_outpoints. eauto.
  Qed.

  Lemma client_abandon ks c b id tx c' o b' : client_after sha pub_of ssign ks c b ->
    client_meant sha c b (CAbandon id) -> c_step sha pub_of ssign c (CAbandon id) = (c', o) ->
    entered sha c b (CAbandon id) o b' ->
    b_sent b !! id = Some tx -> base.NoDup (tx_inputs tx) ->
    (forall i, In i (tx_inputs tx) -> In i (b_tied b) /\ ~ spent_by_some (delete id (b_sent b)) i) ->
    o = CoBool true /\
    cl_balance c' = cl_balance c + worth (tx_inputs tx) /\
    cl_txs c' = delete id (cl_txs c) /\
    (forall i, In i (tx_inputs tx) -> In i (b_own b') /\ ~ In i (b_tied b')).
  Proof.
    intros H M S E HS ND HT. destruct (after_cinv _ _ _ H) as [held V].
    pose proof E as E'. cbn [entered] in E. rewrite HS in E. destruct E as (E1 & E2 & E3 & E4 & E5 & E6).
    assert (BD : bounded sha b') by (destruct (v_bound _ _ _ V); split; now rewrite E1).
    destruct (client_step _ _ _ _ _ _ _ V M S E' BD) as [[held' V'] _].
    destruct (cinv_agrees _ _ _ V) as (_ & B1 & _). destruct (cinv_agrees _ _ _ V') as (_ & B2 & _).
    split; [|split; [|split]].
    - cbn [c_step] in S. unfold abandon_transaction in S. rewrite (v_txs _ _ _ V), HS in S.
      destruct (fold_left _ _ _) as [w sp]. now injection S as <- <-.
    - assert (P : Permutation (b_tied b) (tx_inputs tx ++ b_tied b')).
      { apply NoDup_Permutation.
        - destruct (cinv_agrees _ _ _ V) as (_ & _ & _ & _ & N & _). exact N.
        - apply NoDup_app. split; [exact ND|]. split; [|exact E5]. intros i Hi Ht.
          apply elem_of_list_In in Hi, Ht. apply E6 in Ht as [_ Ht]. rewrite E4 in Ht. apply (HT i Hi). auto.
        - intros i. rewrite elem_of_app, !elem_of_list_In, E6. split.
          + intros Ht. destruct (decide (i ∈ tx_inputs tx)) as [D|D]; rewrite elem_of_list_In in D; [auto|].
            right. split; [auto|]. intros; contradiction.
          + intros [Hi|[Ht _]]; [now apply HT|exact Ht]. }
      rewrite (worth_perm _ _ P), worth_app in B1. rewrite E1 in B2. lia.
    - rewrite (v_txs _ _ _ V'), (v_txs _ _ _ V). exact E4.
    - intros i Hi. destruct (HT i Hi) as [Ht Hn]. split; [rewrite E1; eapply tied_own; eauto|].
      rewrite E6, E4. tauto.
  Qed.

  Lemma client_restart ks c b : client_after sha pub_of ssign ks c b -> client_typed c ->
    exists c', open_client sha (save_all c) = Some c' /\
      cl_balance c' = cl_balance c /\
      w_keys (cl_wallet c') = w_keys (cl_wallet c) /\
      (forall x, is_ours (cl_wallet c') x = is_ours (cl_wallet c) x) /\
      cl_txs c' = cl_txs c /\ cl_inputs c' = cl_inputs c /\ cl_spend c' = cl_spend c /\
      client_after sha pub_of ssign (ks ++ [CRestart]) c' b.
  Proof.
    intros H T. destruct (after_cinv _ _ _ H) as [held V].
    destruct (restart_step c b held V T) as (c' & O & V' & E1 & E2 & E3 & E4 & E5).
    exists c'. split; [exact O|]. split.
    { unfold cl_balance. rewrite (balance_held sha pub_of ssign _ _ (v_inv _ _ _ V)), (balance_held sha pub_of ssign _ _ (v_inv _ _ _ V')). reflexivity. }
    repeat (split; [assumption|]). eapply history_app; [exact H|exact T| |reflexivity|apply (v_bound _ _ _ V)].
    cbn [c_step]. now rewrite O.
  Qed.

  (* coins of a transaction that was made but not sent *)
  Lemma stuck_step c b k o b' (i : input) : In i (b_tied b) -> (forall id tx, b_sent b !! id = Some tx -> in_prevout i ∉ outpoints (tx_inputs tx)) ->
    not_sending (in_prevout i) k -> c_step sha pub_of ssign c k = (fst (c_step sha pub_of ssign c k), o) -> entered sha c b k o b' ->
    In i (b_tied b') /\ (forall id tx, b_sent b' !! id = Some tx -> in_prevout i ∉ outpoints (tx_inputs tx)).
  Proof.
    intros Ti Hs NS SS E. destruct k; cbn [entered not_sending] in *.
    - subst b'. auto.
    - cbn [c_step] in SS. unfold mint_new_coins in SS. destruct (mint_outputs _ _ _ _ _) as [w os]. cbn [fst] in SS.
      injection SS as <-. subst b'. cbn. split; [auto|]. intros id tx H. apply first_kept_lookup in H as [H|[-> ->]]; [eauto|].
      cbn. apply not_elem_of_nil.
    - destruct o as [[tx| | |]| | | |]; subst b'; auto. cbn. rewrite in_app_iff. auto.
    - destruct o as [[tx| | |]| | | |]; subst b'; auto. cbn. rewrite in_app_iff. auto.
    - subst b'. cbn. split; [auto|]. intros id t H. apply first_kept_lookup in H as [H|[-> ->]]; [eauto|exact NS].
    - subst b'. destruct (is_ours _ _); auto.
    - subst b'. unfold settle_expected, settle_sent. destruct (b_sent b !! id) as [tx|] eqn:HS.
      + assert (X : In i (remove (outpoints (tx_inputs tx)) (b_tied b))) by (apply in_remove; split; [auto|eauto]).
        assert (Y : forall id' t, delete id (b_sent b) !! id' = Some t -> in_prevout i ∉ outpoints (tx_inputs t)).
        { intros id' t H. apply lookup_delete_Some in H as [_ H]. eauto. }
        cbn [b_expected]. destruct (b_expected b !! id); cbn; auto.
      + destruct (b_expected b !! id); cbn; auto.
    - destruct (b_sent b !! id) as [tx|] eqn:HS; [|subst b'; auto].
      destruct E as (_ & _ & _ & E4 & _ & E6). split.
      + apply E6. split; [auto|]. intros Hi. exfalso. apply (Hs _ _ HS). apply in_outpoints. eauto.
      + rewrite E4. intros id' t H. apply lookup_delete_Some in H as [_ H]. eauto.
    - subst b'. auto.
  Qed.
  Lemma stuck_history c b ks c' b' : client_history sha pub_of ssign c b ks c' b' -> forall i,
    In i (b_tied b) -> (forall id tx, b_sent b !! id = Some tx -> in_prevout i ∉ outpoints (tx_inputs tx)) ->
    Forall (not_sending (in_prevout i)) ks -> In i (b_tied b').
  Proof.
    induction 1 as [|c b k c1 o b1 ks c2 b2 M S E B H IH]; intros i Ti Hs F; [exact Ti|].
    apply Forall_cons in F as [F1 F2].
    destruct (stuck_step c b k o b1 i Ti Hs F1) as [T1 H1]; [rewrite S; reflexivity|exact E|].
    now apply IH.
  Qed.
  Lemma client_stuck ks c b ks' c' b' i : client_after sha pub_of ssign ks c b ->
    client_history sha pub_of ssign c b ks' c' b' ->
    In i (b_tied b) -> (forall id tx, b_sent b !! id = Some tx -> in_prevout i ∉ outpoints (tx_inputs tx)) ->
    Forall (not_sending (in_prevout i)) ks' ->
    In i (b_own b') /\ In i (b_tied b') /\ cl_balance c' + coin_value i <= worth (b_own b').
  Proof.
    intros H H' Ti Hs F. pose proof (stuck_history _ _ _ _ _ H' i Ti Hs F) as T'.
    destruct (after_cinv _ _ _ H) as [held V]. destruct (history_cinv _ _ _ _ _ H' _ V) as [held' V'].
    destruct (cinv_agrees _ _ _ V') as (A1 & A2 & _). split; [auto|]. split; [auto|].
    destruct (in_split _ _ T') as (t1 & t2 & E). rewrite E, worth_app, worth_cons in A2. lia.
  Qed.

  (* an interrupted write of the client file *)
  Lemma torn_exit c f n : client_typed c -> (n < length (save_client_state c))%nat ->
    open_client sha (crash_files f c (CrClient n)) = None.
  Proof.
    intros [_ T] L. unfold open_client. cbn [crash_files f_wallet f_client].
    destruct (match f_wallet f with None => Some w_empty | Some b => load sha w_empty b end) as [w|]; [|reflexivity].
    unfold save_client_state in *. rewrite ostream_ok in *. cbn [app] in *.
    match goal with |- context [concat (wr c_client_file ?x)] =>
      change (concat (wr c_client_file x)) with (enc c_client_file x) in *; set (v := x) in * end.
    destruct (dec c_client_file (Dst (firstn n (enc c_client_file v)) true)) as [[[a b] d] [r vd]| |] eqn:D; [|reflexivity|reflexivity].
    cbn [valid]. destruct vd; [|reflexivity]. exfalso.
    destruct (l_local _ lawful_client_file _ _ _ D) as [_ Q].
    specialize (Q (skipn n (enc c_client_file v))). rewrite firstn_skipn in Q.
    pose proof (l_rt _ lawful_client_file v [] T) as RT. rewrite app_nil_r in RT. rewrite RT in Q.
    assert (Q' : r ++ skipn n (enc c_client_file v) = []) by congruence. clear Q. apply app_eq_nil in Q' as [_ Q].
    assert (length (skipn n (enc c_client_file v)) = 0)%nat by now rewrite Q. rewrite skipn_length in H. lia.
  Qed.

  (* sync, two-phase *)
  Lemma confirm_tx_lookup c id id' :
    cl_txs (fst (confirm_tx sha c id)) !! id' = (if decide (id = id') then None else cl_txs c !! id') /\
    cl_inputs (fst (confirm_tx sha c id)) !! id' = (if decide (id = id') then None else cl_inputs c !! id').
  Proof.
    unfold confirm_tx, confirm_sent, confirm_expected.
    destruct (cl_txs c !! id) as [tx|] eqn:T; cbn [cl_txs cl_inputs];
      destruct (cl_inputs c !! id) as [i|] eqn:I; cbn [fst cl_txs cl_inputs];
      (destruct (decide (id = id')) as [<-|NE];
        rewrite ?lookup_delete, ?lookup_delete_ne by auto; auto).
  Qed.
  Lemma sync_fold answer l : forall c ok,
    fold_left (sync_one sha pub_of ssign answer) l (c, ok)
    = (fst (c_run sha pub_of ssign c (map CConfirm (List.filter (fun id => bool_decide (answer id = Some true)) l))),
       ok && forallb (fun id => negb (bool_decide (answer id = None))) l).
  Proof.
    induction l as [|id r IH]; intros c ok; cbn [fold_left List.filter map c_run forallb fst].
    { now rewrite andb_true_r. }
    unfold sync_one at 2. cbn [fst snd]. destruct (answer id) as [[|]|] eqn:A.
    - rewrite IH, bool_decide_eq_true_2 by auto. rewrite bool_decide_eq_false_2 by discriminate. cbn [negb andb map c_run].
      destruct (c_step sha pub_of ssign c (CConfirm id)) as [c1 o1]. cbn [fst]. destruct (c_run _ _ _ c1 _). reflexivity.
    - rewrite IH, !bool_decide_eq_false_2 by discriminate. reflexivity.
    - rewrite IH, (bool_decide_eq_false_2 (None = Some true)) by discriminate.
      rewrite bool_decide_eq_true_2 by auto. cbn [negb andb]. now rewrite andb_false_r.
  Qed.
  Lemma run_confirms ids : forall c id,
    cl_txs (fst (c_run sha pub_of ssign c (map CConfirm ids))) !! id
      = (if decide (id ∈ ids) then None else cl_txs c !! id) /\
    cl_inputs (fst (c_run sha pub_of ssign c (map CConfirm ids))) !! id
      = (if decide (id ∈ ids) then None else cl_inputs c !! id).
  Proof.
    induction ids as [|x r IH]; intros c id; cbn [map c_run].
    { cbn [fst]. destruct (decide (id ∈ [])) as [D|D]; [now apply elem_of_nil in D|auto]. }
    cbn [c_step]. destruct (confirm_tx_lookup c x id) as [L1 L2]. destruct (confirm_tx sha c x) as [c1 b1]. cbn [fst] in *.
    destruct (IH c1 id) as [I1 I2]. destruct (c_run sha pub_of ssign c1 (map CConfirm r)) as [c2 os]. cbn [fst] in *.
    rewrite I1, I2, L1, L2.
    destruct (decide (id ∈ r)) as [D|D], (decide (x = id)) as [->|NE], (decide (_ ∈ _ :: r)) as [E|E]; auto;
      exfalso; rewrite elem_of_cons in E; try tauto; destruct E as [->|E]; auto.
  Qed.
  Lemma pending_ids_spec c : base.NoDup (pending_ids c) /\
    forall id, id ∈ pending_ids c <-> cl_txs c !! id <> None \/ cl_inputs c !! id <> None.
  Proof.
    assert (P : Permutation (pending_ids c) (elements (base.dom (cl_txs c) ∪ base.dom (cl_inputs c) : gset N))).
    { apply merge_sort_Permutation. }
    split.
    - rewrite P. apply NoDup_elements.
    - intros id. rewrite P, elem_of_elements, elem_of_union, !elem_of_dom.
      rewrite <- !not_eq_None_Some. tauto.
  Qed.
  Lemma twophase_sync_spec answer c c' ok : twophase_sync sha pub_of ssign answer c = (c', ok) ->
    (ok = true <-> forall id, cl_txs c !! id <> None \/ cl_inputs c !! id <> None -> answer id <> None) /\
    (forall id, cl_txs c' !! id = (if decide (answer id = Some true) then None else cl_txs c !! id)) /\
    (forall id, cl_inputs c' !! id = (if decide (answer id = Some true) then None else cl_inputs c !! id)) /\
    exists ids, answered_yes answer c ids /\ c' = fst (c_run sha pub_of ssign c (map CConfirm ids)).
  Proof.
    unfold twophase_sync. rewrite sync_fold. intros H. injection H as H1 H2.
    destruct (pending_ids_spec c) as [ND PI].
    set (ids := List.filter (fun id => bool_decide (answer id = Some true)) (pending_ids c)) in *.
    assert (II : forall id, id ∈ ids <-> answer id = Some true /\ (cl_txs c !! id <> None \/ cl_inputs c !! id <> None)).
    { intros id. unfold ids. rewrite elem_of_list_In, filter_In, <- elem_of_list_In, PI, bool_decide_eq_true. tauto. }
    split; [|split; [|split]].
    - subst ok. cbn [andb]; rewrite forallb_forall. split.
      + intros F id Hp. specialize (F id). rewrite <- elem_of_list_In, PI in F. specialize (F Hp).
        apply negb_true_iff, bool_decide_eq_false in F. exact F.
      + intros F id Hi. apply negb_true_iff, bool_decide_eq_false. apply F. apply PI. now apply elem_of_list_In.
    - intros id. rewrite <- H1. rewrite (proj1 (run_confirms ids c id)).
      destruct (decide (answer id = Some true)) as [A|A].
      + destruct (decide (id ∈ ids)) as [D|D]; [auto|].
        destruct (cl_txs c !! id) eqn:E; [|reflexivity]. exfalso. apply D, II. split; [auto|]. left. congruence.
      + rewrite decide_False; [auto|]. rewrite II. tauto.
    - intros id. rewrite <- H1. rewrite (proj2 (run_confirms ids c id)).
      destruct (decide (answer id = Some true)) as [A|A].
      + destruct (decide (id ∈ ids)) as [D|D]; [auto|].
        destruct (cl_inputs c !! id) eqn:E; [|reflexivity]. exfalso. apply D, II. split; [auto|]. right. congruence.
      + rewrite decide_False; [auto|]. rewrite II. tauto.
    - exists ids. split; [|auto]. split.
      + unfold ids. clear -ND. induction (pending_ids c) as [|x r IH]; cbn; [constructor|].
        apply NoDup_cons in ND as [N1 N2]. destruct (bool_decide _); [|auto]. apply NoDup_cons. split; [|auto].
        intros H. apply elem_of_list_In, filter_In in H as [H _]. apply N1. now apply elem_of_list_In.
      + intros id. rewrite <- elem_of_list_In. apply II.
  Qed.

  (* sync, atomizer *)
  Lemma sync_states_true ok ss : sync_states ok ss = true -> ok = true /\ (ss = [] \/ in_a_block ss).
  Proof.
    assert (F : forall l, sync_states false l = false).
    { induction l as [|s r IH]; cbn; [reflexivity|]. destruct (su_status s); auto. }
    destruct ss as [|s r]; cbn; [auto|].
    destruct (su_status s) eqn:E; rewrite ?F; try discriminate; intros ->; split; auto; right; exists s, r; auto.
  Qed.
  Lemma sync_states_in ok ss : in_a_block ss -> sync_states ok ss = ok.
  Proof. intros (s & r & -> & [E|E]); cbn; now rewrite E. Qed.
  Lemma sync_reply_false es : forall c, fold_left (sync_reply sha) es (c, false) = (c, false).
  Proof.
    induction es as [|[id ss] r IH]; intros c; cbn [fold_left]; [reflexivity|].
    unfold sync_reply at 2. cbn [fst snd]. destruct (sync_states false ss) eqn:S; [|apply IH].
    apply sync_states_true in S as [? _]. discriminate.
  Qed.
  (** What is confirmed is a prefix of the reply. *)
  Lemma atomizer_prefix es : forall c c' ok, fold_left (sync_reply sha) es (c, true) = (c', ok) ->
    exists done rest, es = done ++ rest /\
      c' = fst (c_run sha pub_of ssign c (map CConfirm (map fst done))) /\
      Forall (fun e => snd e = [] \/ in_a_block (snd e)) done /\
      (ok = true -> rest = []).
  Proof.
    induction es as [|[id ss] r IH]; intros c c' ok H; cbn [fold_left] in H.
    { injection H as <- <-. exists [], []. cbn. auto. }
    unfold sync_reply at 2 in H. cbn [fst snd] in H. destruct (sync_states true ss) eqn:S.
    - apply sync_states_true in S as [_ S]. destruct (confirm_tx sha c id) as [c1 b1] eqn:C. destruct b1.
      + destruct (IH c1 c' ok H) as (done & rest & -> & -> & F & R). exists ((id, ss) :: done), rest.
        split; [reflexivity|]. split; [|split; [apply Forall_cons; auto|auto]].
        cbn [map fst c_run c_step]. rewrite C. destruct (c_run sha pub_of ssign c1 _). reflexivity.
      + rewrite sync_reply_false in H. injection H as <- <-. exists [(id, ss)], r.
        split; [reflexivity|]. split; [|split; [apply Forall_cons; auto|discriminate]].
        cbn [map fst c_run c_step]. now rewrite C.
    - rewrite sync_reply_false in H. injection H as <- <-. exists [], ((id, ss) :: r). cbn. split; [auto|]. split; [auto|]. split; [constructor|discriminate].
  Qed.
  Lemma confirm_true c id : cl_txs c !! id <> None \/ cl_inputs c !! id <> None -> snd (confirm_tx sha c id) = true.
  Proof.
    unfold confirm_tx, confirm_sent, confirm_expected. intros H.
    destruct (cl_txs c !! id) eqn:T; cbn [cl_inputs]; destruct (cl_inputs c !! id) eqn:I; cbn; auto. destruct H; congruence.
  Qed.
  Lemma atomizer_all es : forall c, base.NoDup (map fst es) ->
    (forall e, In e es -> cl_txs c !! fst e <> None \/ cl_inputs c !! fst e <> None) ->
    Forall (fun e => in_a_block (snd e)) es ->
    fold_left (sync_reply sha) es (c, true) = (fst (c_run sha pub_of ssign c (map CConfirm (map fst es))), true).
  Proof.
    induction es as [|[id ss] r IH]; intros c ND HP F; cbn [fold_left]; [reflexivity|].
    apply Forall_cons in F as [F1 F2]. cbn [map fst] in ND. apply NoDup_cons in ND as [N1 N2]. cbn [snd] in F1.
    unfold sync_reply at 2. cbn [fst snd]. rewrite (sync_states_in true ss F1).
    pose proof (confirm_true c id (HP (id, ss) (or_introl eq_refl))) as CT.
    assert (CL : forall id', id' <> id -> cl_txs (fst (confirm_tx sha c id)) !! id' = cl_txs c !! id' /\ cl_inputs (fst (confirm_tx sha c id)) !! id' = cl_inputs c !! id').
    { intros id' NE. destruct (confirm_tx_lookup c id id') as [A B]. destruct (decide (id = id')); [congruence|]. auto. }
    destruct (confirm_tx sha c id) as [c1 b1] eqn:C. cbn [fst snd] in *. subst b1.
    rewrite IH; auto.
    - cbn [map fst c_run c_step]. rewrite C. destruct (c_run sha pub_of ssign c1 _). reflexivity.
    - intros e He. destruct (CL (fst e)) as [A B].
      + intros E. apply N1. rewrite <- E. apply elem_of_list_In, in_map_iff. eauto.
      + rewrite A, B. apply HP. now right.
  Qed.
  Lemma atomizer_sync_prefix es c c' ok : atomizer_sync sha (Some es) c = Some (c', ok) ->
    exists done rest, es = done ++ rest /\
      c' = fst (c_run sha pub_of ssign c (map CConfirm (map fst done))) /\
      Forall (fun e => snd e = [] \/ in_a_block (snd e)) done /\
      (ok = true -> rest = []).
  Proof. cbn [atomizer_sync]. intros H. injection H as H. now apply atomizer_prefix. Qed.
  Lemma atomizer_sync_all es c : base.NoDup (map fst es) ->
    (forall e, In e es -> cl_txs c !! fst e <> None \/ cl_inputs c !! fst e <> None) ->
    Forall (fun e => in_a_block (snd e)) es ->
    atomizer_sync sha (Some es) c = Some (fst (c_run sha pub_of ssign c (map CConfirm (map fst es))), true).
  Proof. intros A B C. cbn [atomizer_sync]. f_equal. now apply atomizer_all. Qed.
  (** Nothing but the files decides what is opened. *)
  Lemma open_mixed c c' c1 c1' : open_client sha (save_all c) = Some c1 -> open_client sha (save_all c') = Some c1' ->
    open_client sha (crash_files (save_all c) c' CrBetween) =
      Some (Client (cl_wallet c1) (cl_txs c1') (cl_inputs c1') (cl_spend c1')).
  Proof.
    unfold open_client, save_all, crash_files. cbn [f_wallet f_client].
    destruct (load sha w_empty (save (cl_wallet c))) as [w|]; [|discriminate].
    destruct (load sha w_empty (save (cl_wallet c'))) as [w'|]; [|discriminate].
    destruct (dec c_client_file _) as [[[t i] p] s| |]; try discriminate.
    destruct (dec c_client_file (Dst (save_client_state c') true)) as [[[t' i'] p'] s'| |]; try discriminate.
    destruct (valid s); [|discriminate]. destruct (valid s'); [|discriminate].
    intros A B. injection A as <-. injection B as <-. reflexivity.
  Qed.
  Lemma crash_between ks c b ks' c' b' : client_after sha pub_of ssign ks c b -> client_typed c ->
    client_after sha pub_of ssign ks' c' b' -> client_typed c' ->
    exists c'', open_client sha (crash_files (save_all c) c' CrBetween) = Some c'' /\
      cl_balance c'' = cl_balance c /\ w_keys (cl_wallet c'') = w_keys (cl_wallet c) /\
      cl_txs c'' = cl_txs c' /\ cl_inputs c'' = cl_inputs c' /\ cl_spend c'' = cl_spend c'.
  Proof.
    intros H T H' T'.
    destruct (client_restart _ _ _ H T) as (c1 & O & B & K & _).
    destruct (client_restart _ _ _ H' T') as (c1' & O' & _ & _ & _ & X & Y & Z & _).
    exists (Client (cl_wallet c1) (cl_txs c1') (cl_inputs c1') (cl_spend c1')).
    split; [now apply open_mixed|]. auto.
  Qed.
End P.
