(** Proofs about payments between clients: what is exported, sent and received. *)
From Coq Require Import NArith List Bool Lia Permutation.
From stdpp Require Import base decidable list gmap.
From Verif Require Import Base CodecModel TxModel TxProofs ValidationModel ValidationSpec WalletModel WalletSpec
  WalletProofs WatchtowerModel ClientModel ClientSpec ClientProofs PaySpec.
Import ListNotations.
Open Scope N_scope.

Section Proofs.
  Variable sha : bytes -> hash.
  Variable pub_of : N -> N.
  Variable ssign : N -> hash -> N.

  Lemma outputs_from_at tx keep os : forall j i,
    In i (outputs_from sha tx keep (N.of_nat j) os) <->
    exists k o, nth_error os k = Some o /\ keep o = true /\
      i = Input (OutPoint (tx_id sha tx) (N.of_nat (j + k))) o.
  Proof.
    induction os as [|o r IH]; intros j i; cbn [outputs_from].
    { split; [contradiction|]. intros (k & o & H & _). now destruct k. }
    replace (N.of_nat j + 1) with (N.of_nat (S j)) by lia.
    rewrite in_app_iff, IH. split.
    - intros [H|(k & o' & H1 & H2 & H3)].
      + destruct (keep o) eqn:K; [|contradiction]. destruct H as [<-|[]].
        exists 0%nat, o. rewrite Nat.add_0_r. auto.
      + exists (S k), o'. rewrite <- plus_n_Sm. auto.
    - intros ([|k] & o' & H1 & H2 & H3); cbn [nth_error] in H1.
      + injection H1 as <-. left. rewrite H2, H3, Nat.add_0_r. now left.
      + right. exists k, o'. rewrite H3, <- plus_n_Sm. auto.
  Qed.

  Lemma exported tx payee i :
    In i (export_send_inputs sha tx payee) <->
    exists k, input_from_output sha tx k = Some i /\
      out_commit (in_data i) = get_p2pk_witness_commitment sha payee.
  Proof.
    unfold export_send_inputs. change 0 with (N.of_nat 0). rewrite outputs_from_at.
    unfold input_from_output, input_from_output_id. split.
    - intros (k & o & H1 & H2 & ->). exists k. rewrite H1. split; [reflexivity|]. now apply N.eqb_eq.
    - intros (k & H1 & H2). destruct (nth_error (tx_outputs tx) k) as [o|] eqn:E; [|discriminate].
      injection H1 as <-. exists k, o. cbn in H2. split; [exact E|]. split; [now apply N.eqb_eq|reflexivity].
  Qed.

  Lemma exported_uhs tx payee i : In i (export_send_inputs sha tx payee) ->
    In (input_hash sha i) (ctx_outputs (to_compact sha tx)).
  Proof.
    intros H. apply exported in H as (k & H & _).
    pose proof (output_id_correspondence sha tx k) as E. rewrite H in E. cbn in E.
    exact (nth_error_In _ _ E).
  Qed.

  Lemma exported_worth tx payee :
    worth (export_send_inputs sha tx payee) = total (map out_value (paid_to sha tx payee)).
  Proof. unfold export_send_inputs, paid_to. now rewrite outputs_from_worth. Qed.

  Lemma credit_new own i : in_prevout i ∉ outpoints own -> credit own i = i :: own.
  Proof. intros H. unfold credit. now rewrite bool_decide_eq_false_2. Qed.

  (** ** Receiving *)
  Lemma receive_one ks c b i : client_after sha pub_of ssign ks c b -> awaited c b i ->
    b_expected b !! (op_txid (in_prevout i) : N) = None ->
    worth (i :: b_own b) < 2 ^ 64 -> base.NoDup (map (input_hash sha) (i :: b_own b)) ->
    exists c', c_run sha pub_of ssign c [CImportInput i; CConfirm (op_txid (in_prevout i))]
               = (c', [CoNone; CoBool true]) /\
      client_after sha pub_of ssign (ks ++ [CImportInput i] ++ [CConfirm (op_txid (in_prevout i))]) c'
        (Books (i :: b_own b) (b_tied b) (b_gone b) (b_sent b) (b_expected b)) /\
      cl_balance c' = cl_balance c + coin_value i /\
      w_progs (cl_wallet c') = w_progs (cl_wallet c).
  Proof.
    intros A (O & S & NA & NO) EX W ND.
    set (id := op_txid (in_prevout i) : N) in *.
    set (c1 := fst (c_step sha pub_of ssign c (CImportInput i))).
    set (b1 := Books (b_own b) (b_tied b) (b_gone b) (b_sent b) (<[id := i]> (b_expected b))).
    set (b2 := Books (i :: b_own b) (b_tied b) (b_gone b) (b_sent b) (b_expected b)).
    pose proof (client_accounting _ _ _ _ _ _ A) as AG.
    assert (S1 : c_step sha pub_of ssign c (CImportInput i) = (c1, CoNone)) by reflexivity.
    assert (E1 : entered sha c b (CImportInput i) CoNone b1).
    { cbn [entered]. rewrite O. unfold b1. f_equal. unfold first_kept. fold id. now rewrite EX. }
    assert (B1 : bounded sha b1).
    { split; cbn [b_own b1].
      - rewrite worth_cons in W. lia.
      - cbn [map] in ND. now apply NoDup_cons in ND as [_ ?]. }
    assert (A1 : client_after sha pub_of ssign (ks ++ [CImportInput i]) c1 b1).
    { eapply history_app; [exact A|exact Logic.I|exact S1|exact E1|exact B1]. }
    pose proof (client_accounting _ _ _ _ _ _ A1) as AG1.
    destruct AG as (_ & BAL & _ & _ & _ & _ & TX & IN).
    destruct AG1 as (_ & _ & _ & _ & _ & _ & TX1 & IN1).
    assert (E2 : settle_expected (settle_sent sha (cl_wallet c1) b1 id) id = b2).
    { unfold settle_sent. cbn [b_sent b1]. rewrite S. unfold settle_expected. cbn [b_expected b1].
      rewrite lookup_insert. unfold b2. cbn [b_own b_tied b_gone b_sent b1]. f_equal.
      - now apply credit_new.
      - now apply delete_insert. }
    destruct (confirm_tx sha c1 id) as [c2 r] eqn:CT.
    assert (R : r = true).
    { pose proof (confirm_true sha c1 id) as CTr. rewrite CT in CTr. apply CTr. right.
      rewrite IN1. cbn [b1 b_expected]. rewrite lookup_insert. discriminate. }
    subst r.
    assert (S2 : c_step sha pub_of ssign c1 (CConfirm id) = (c2, CoBool true)).
    { cbn [c_step]. now rewrite CT. }
    assert (A2 : client_after sha pub_of ssign ((ks ++ [CImportInput i]) ++ [CConfirm id]) c2 b2).
    { eapply history_app; [exact A1| |exact S2|cbn [entered]; symmetry; exact E2|].
      - cbn [client_meant]. split.
        + intros tx H. cbn [b1 b_sent] in H. congruence.
        + intros j H. cbn [b1 b_expected] in H. rewrite lookup_insert in H. injection H as <-. exact NA.
      - split; [exact W|exact ND]. }
    exists c2. rewrite <- app_assoc in A2. split; [|split; [exact A2|]].
    - cbn [c_run]. rewrite S1, S2. reflexivity.
    - pose proof (client_accounting _ _ _ _ _ _ A2) as (_ & BAL2 & _).
      cbn [b2 b_tied b_own] in BAL2. rewrite worth_cons in BAL2. split; [lia|].
      unfold confirm_tx, confirm_sent, confirm_expected in CT.
      rewrite TX1 in CT. cbn [b1 b_sent] in CT. rewrite S in CT.
      rewrite IN1 in CT. cbn [b1 b_expected] in CT. rewrite lookup_insert in CT. injection CT as <-.
      cbn [cl_wallet]. unfold confirm_inputs, update_balance.
      assert (Wc : cl_wallet c1 = cl_wallet c).
      { unfold c1. cbn [c_step fst]. now destruct (is_spendable (cl_wallet c) i). }
      rewrite Wc. cbn [fold_left fst]. unfold credit_one. destruct (us_insert i _) as [us [|]]; reflexivity.
  Qed.

  Lemma run_app c ks ks' : c_run sha pub_of ssign c (ks ++ ks')
    = (fst (c_run sha pub_of ssign (fst (c_run sha pub_of ssign c ks)) ks'),
       snd (c_run sha pub_of ssign c ks) ++ snd (c_run sha pub_of ssign (fst (c_run sha pub_of ssign c ks)) ks')).
  Proof.
    revert c. induction ks as [|k ks IH]; intros c; cbn [app c_run].
    - cbn [fst snd app]. now destruct (c_run sha pub_of ssign c ks').
    - destruct (c_step sha pub_of ssign c k) as [c1 o]. rewrite IH.
      destruct (c_run sha pub_of ssign c1 ks) as [c2 os]. reflexivity.
  Qed.

  Lemma receive_each l : forall ks c b, client_after sha pub_of ssign ks c b ->
    Forall (awaited c b) l -> Forall (fun i => b_expected b !! (op_txid (in_prevout i) : N) = None) l ->
    base.NoDup (outpoints l) ->
    worth (l ++ b_own b) < 2 ^ 64 -> base.NoDup (map (input_hash sha) (l ++ b_own b)) ->
    let c' := fst (c_run sha pub_of ssign c (one_by_one l)) in
    exists b', client_after sha pub_of ssign (ks ++ one_by_one l) c' b' /\
      cl_balance c' = cl_balance c + worth l /\
      Permutation (b_own b') (l ++ b_own b) /\ b_tied b' = b_tied b.
  Proof.
    induction l as [|i l IH]; intros ks c b A AW EX ND W NH c'.
    - exists b. cbn in c'. subst c'. cbn [one_by_one flat_map]. rewrite app_nil_r.
      split; [exact A|]. split; [change (worth []) with 0; lia|]. split; reflexivity.
    - inversion AW as [|? ? AW1 AW2 e1]; subst. inversion EX as [|? ? EX1 EX2 e2]; subst. clear AW EX.
      cbn [outpoints map] in ND. apply NoDup_cons in ND as [NI ND].
      cbn [app map] in NH. pose proof NH as NH0. apply NoDup_cons in NH0 as [NI2 NH1].
      destruct (receive_one ks c b i A AW1 EX1) as (c1 & R1 & A1 & B1 & P1).
      { cbn [app] in W. rewrite worth_cons in W. rewrite worth_app in W. rewrite worth_cons. lia. }
      { cbn [map]. apply NoDup_cons. rewrite map_app in NI2, NH1. rewrite elem_of_app in NI2.
        apply NoDup_app in NH1 as (_ & _ & ?). split; [tauto|assumption]. }
      set (b1 := Books (i :: b_own b) (b_tied b) (b_gone b) (b_sent b) (b_expected b)) in A1.
      assert (AW3 : Forall (awaited c1 b1) l).
      { apply Forall_forall. intros j Hj. rewrite Forall_forall in AW2.
        destruct (AW2 j Hj) as (J1 & J2 & J3 & J4). split; [|split; [exact J2|split; [exact J3|]]].
        - unfold is_ours in *. now rewrite P1.
        - cbn [b1 b_own]. intros X. cbn [outpoints map] in X. apply elem_of_cons in X as [X|X]; [|now apply J4].
          apply NI. rewrite <- X. apply elem_of_list_fmap_1. exact Hj. }
      destruct (IH _ c1 b1 A1 AW3) as (b' & A2 & B2 & P2 & T2); [exact EX2|exact ND| | |].
      { cbn [b1 b_own]. cbn [app] in W. rewrite worth_cons, worth_app in W. rewrite worth_app, worth_cons. lia. }
      { cbn [b1 b_own]. rewrite map_app. cbn [map]. rewrite <- Permutation_middle, <- map_app. exact NH. }
      assert (E : c_run sha pub_of ssign c (one_by_one (i :: l))
                  = (fst (c_run sha pub_of ssign c1 (one_by_one l)),
                     [CoNone; CoBool true] ++ snd (c_run sha pub_of ssign c1 (one_by_one l)))).
      { change (one_by_one (i :: l)) with ([CImportInput i; CConfirm (op_txid (in_prevout i))] ++ one_by_one l).
        rewrite run_app, R1. reflexivity. }
      subst c'. rewrite E. cbn [fst]. exists b'. split; [|split; [|split]].
      + change (one_by_one (i :: l)) with ([CImportInput i; CConfirm (op_txid (in_prevout i))] ++ one_by_one l).
        rewrite <- app_assoc in A2. exact A2.
      + rewrite B2, B1, worth_cons. lia.
      + etransitivity; [exact P2|]. cbn [b1 b_own app]. symmetry. apply Permutation_middle.
      + exact T2.
  Qed.

  Lemma import_again l (id : N) j : forall c, cl_inputs c !! id = Some j ->
    Forall (fun i => op_txid (in_prevout i) = id) l ->
    fst (c_run sha pub_of ssign c (map CImportInput l)) = c.
  Proof.
    induction l as [|i l IH]; intros c H F; cbn [map c_run]; [reflexivity|].
    inversion F as [|? ? F1 F2 e]; subst. clear F.
    assert (E : fst (c_step sha pub_of ssign c (CImportInput i)) = c).
    { cbn [c_step fst]. destruct (is_spendable (cl_wallet c) i); [|reflexivity].
      unfold m_insert. rewrite H. now destruct c. }
    destruct (c_step sha pub_of ssign c (CImportInput i)) as [c1 o]. cbn [fst] in E. subst c1.
    specialize (IH c H F2). now destruct (c_run sha pub_of ssign c (map CImportInput l)).
  Qed.

  Lemma receive_together ks c b i l (id : N) : client_after sha pub_of ssign ks c b -> awaited c b i ->
    Forall (fun i => op_txid (in_prevout i) = id) (i :: l) ->
    b_expected b !! id = None ->
    worth (i :: b_own b) < 2 ^ 64 -> base.NoDup (map (input_hash sha) (i :: b_own b)) ->
    cl_balance (fst (c_run sha pub_of ssign c (together (i :: l) id))) = cl_balance c + coin_value i.
  Proof.
    intros A AW F EX W ND. inversion F as [|? ? F1 F2 e]; subst.
    destruct (receive_one ks c b i A AW EX W ND) as (c' & R & _ & B & _).
    pose proof (client_accounting _ _ _ _ _ _ A) as (_ & _ & _ & _ & _ & _ & _ & IN).
    unfold together. cbn [map app c_run] in R |- *.
    destruct (c_step sha pub_of ssign c (CImportInput i)) as [c1 o1] eqn:S1.
    assert (H1 : cl_inputs c1 !! (op_txid (in_prevout i) : N) = Some i).
    { destruct AW as (O & _). cbn [c_step] in S1. unfold is_spendable in S1. rewrite O in S1. injection S1 as <- _.
      cbn [cl_inputs]. unfold m_insert. rewrite IN, EX. apply lookup_insert. }
    rewrite run_app, (import_again l _ i c1 H1 F2). cbn [c_run] in R |- *.
    destruct (c_step sha pub_of ssign c1 (CConfirm (op_txid (in_prevout i)))) as [c2 o2].
    injection R as -> _ _. cbn [fst]. exact B.
  Qed.

  Lemma payment_received ks c b v payee rnd c1 tx ks' d bd :
    client_after sha pub_of ssign ks c b -> v < 2 ^ 32 ->
    c_step sha pub_of ssign c (CCreate v payee rnd) = (c1, CoTx (Built tx)) ->
    client_after sha pub_of ssign ks' d bd ->
    is_ours (cl_wallet d) (get_p2pk_witness_commitment sha payee) = true ->
    b_sent bd !! (tx_id sha tx : N) = None -> b_expected bd !! (tx_id sha tx : N) = None ->
    (forall p, op_txid p = tx_id sha tx -> p ∉ outpoints (b_own bd) /\ p ∉ b_gone bd) ->
    worth (b_own bd) + v < 2 ^ 64 ->
    (forall i, In i (b_own bd) -> input_hash sha i ∉ ctx_outputs (to_compact sha tx)) ->
    base.NoDup (map (input_hash sha) (b_own bd)) ->
    cl_balance (fst (c_run sha pub_of ssign d (together (export_send_inputs sha tx payee) (tx_id sha tx))))
    = cl_balance d + v.
  Proof.
    intros A V S AD O SN EX NEW W NH ND.
    destruct (client_create _ _ _ _ _ _ _ _ _ _ _ A V S) as [(X & _)|(tx' & ch & X & _ & OU & _)]; [discriminate|].
    injection X as <-.
    set (i := Input (OutPoint (tx_id sha tx) 0) (Output (get_p2pk_witness_commitment sha payee) v)).
    assert (E : export_send_inputs sha tx payee
      = i :: outputs_from sha tx (fun o => out_commit o =? commit_of sha payee) 1 ch).
    { unfold export_send_inputs. rewrite OU. cbn [outputs_from]. rewrite N.eqb_refl. reflexivity. }
    assert (HI : input_hash sha i ∈ ctx_outputs (to_compact sha tx)).
    { apply elem_of_list_In. apply (exported_uhs tx payee). rewrite E. now left. }
    rewrite E.
    pose proof (client_accounting _ _ _ _ _ _ AD) as (TO & _).
    rewrite (receive_together ks' d bd i _ (tx_id sha tx) AD); [reflexivity| | |exact EX| |].
    - split; [exact O|]. split; [exact SN|]. split; [split|]; try apply (NEW (OutPoint (tx_id sha tx) 0) eq_refl).
      intros H. apply (proj1 (NEW (OutPoint (tx_id sha tx) 0) eq_refl)).
      apply elem_of_list_In, in_map_iff in H as (y & Y1 & Y2). change (in_prevout i) with (OutPoint (tx_id sha tx) 0) in Y1.
      apply elem_of_list_In, in_map_iff. exists y. split; [exact Y1|exact (TO _ Y2)].
    - constructor; [reflexivity|]. apply Forall_forall. intros j Hj. apply elem_of_list_In in Hj.
      now apply outputs_from_in in Hj as [? _].
    - rewrite worth_cons. change (coin_value i) with v. lia.
    - cbn [map]. apply NoDup_cons. split; [|exact ND]. intros H.
      apply elem_of_list_In, in_map_iff in H as (y & Y1 & Y2). apply (NH y Y2). now rewrite Y1.
  Qed.

  (** ** Sending *)
  Lemma client_sends ks c b v payee rnd ans c' r :
    client_after sha pub_of ssign ks c b -> v < 2 ^ 32 ->
    client_send sha pub_of ssign c v payee rnd ans = (c', r) ->
    (r = NoTx /\ c' = c /\ cl_balance c < v) \/
    exists tx change, r = Built tx /\ fresh_spend b tx /\
      tx_outputs tx = Output (get_p2pk_witness_commitment sha payee) v :: change /\
      (ans <> Some true ->
         cl_balance c' + total (in_values tx) = cl_balance c /\
         cl_txs c' = first_kept (cl_txs c) (tx_id sha tx) tx /\ cl_inputs c' = cl_inputs c) /\
      (ans = Some true ->
         c' = fst (c_run sha pub_of ssign c [CCreate v payee rnd; CImportTx tx; CConfirm (tx_id sha tx)]) /\
         cl_txs c' !! (tx_id sha tx : N) = None).
  Proof.
    intros A V S. unfold client_send in S.
    destruct (c_step sha pub_of ssign c (CCreate v payee rnd)) as [c1 o] eqn:C.
    assert (TI : cl_txs c1 = cl_txs c /\ cl_inputs c1 = cl_inputs c).
    { cbn [c_step] in C. destruct (send_to sha pub_of ssign (cl_wallet c) v payee true rnd) as [w x].
      unfold made in C. destruct x; injection C as <- _; split; reflexivity. }
    destruct (client_create _ _ _ _ _ _ _ _ _ _ _ A V C) as [(-> & -> & L)|(tx & ch & -> & FS & OU & _ & BAL)].
    - injection S as <- <-. left. auto.
    - injection S as <- <-. right. exists tx, ch. split; [reflexivity|]. split; [exact FS|]. split; [exact OU|].
      destruct TI as (TT & II). split.
      + intros NA. unfold send_transaction.
        replace (match ans with Some true => _ | _ => _ end)
          with (fst (c_step sha pub_of ssign c1 (CImportTx tx))) by (destruct ans as [[|]|]; [congruence|reflexivity|reflexivity]).
        cbn [c_step fst]. unfold import_transaction. cbn [cl_txs cl_inputs].
        split; [exact BAL|]. split; [|exact II]. rewrite first_kept_insert. now rewrite TT.
      + intros ->. unfold send_transaction. cbn [c_run]. rewrite C.
        cbn [c_step fst]. destruct (confirm_tx sha (import_transaction sha c1 tx) (tx_id sha tx)) as [c2 y] eqn:CT.
        split; [reflexivity|]. cbn [fst].
        pose proof (confirm_tx_lookup sha (import_transaction sha c1 tx) (tx_id sha tx) (tx_id sha tx)) as LK. rewrite CT in LK.
        destruct LK as [LK _]. cbn [fst] in LK. rewrite LK. now rewrite decide_True.
  Qed.
End Proofs.
