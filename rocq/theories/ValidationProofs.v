From Coq Require Import NArith List Bool Lia ZifyBool ZifyNat ZifyN.
From stdpp Require Import base decidable list.
From Verif Require Import Base CodecModel CodecProofs TxModel ValidationModel ValidationSpec.
Import ListNotations.
Open Scope N_scope.

Section Proofs.
  Variable sha : bytes -> hash.
  Variable pk_parse : N -> bool.
  Variable schnorr : N -> hash -> N -> bool.

  Notation check_tx := (check_tx sha pk_parse schnorr).
  Notation valid_tx := (valid_tx sha pk_parse schnorr).
  Notation violates := (violates sha pk_parse schnorr).
  Notation authorises := (authorises sha pk_parse schnorr).
  Notation witness_fault := (witness_fault sha pk_parse schnorr).
  Notation first_fault := (first_fault sha pk_parse schnorr).

  (** ** checked totals *)
  Lemma add64_lt a v : a < two64 -> 1 <= v < two64 ->
    (add64 a v <= a <-> two64 <= a + v) /\ (a + v < two64 -> add64 a v = a + v).
  Proof.
    intros Ha Hv. unfold add64, wrap64.
    destruct (N.lt_ge_cases (a + v) two64) as [H|H].
    - rewrite N.mod_small by assumption. lia.
    - assert ((a + v) mod two64 = a + v - two64) as ->.
      { symmetry. apply N.mod_unique with 1; lia. }
      lia.
  Qed.

  Lemma checked_total_spec vs a : a < two64 ->
    Forall (fun v => 1 <= v < two64) vs ->
    checked_total a vs = if a + total vs <? two64 then Some (a + total vs) else None.
  Proof.
    revert a; induction vs as [|v vs IH]; intros a Ha H; simpl.
    - destruct (a + 0 <? two64) eqn:E; [|lia]. f_equal; lia.
    - pose proof (List.Forall_inv H) as Hv. apply List.Forall_inv_tail in H.
      simpl in Hv. destruct (add64_lt a v Ha Hv) as [A B].
      destruct (add64 a v <=? a) eqn:E.
      + destruct (_ <? _) eqn:E2; [|reflexivity]. lia.
      + assert (a + v < two64) as L by lia. rewrite B by assumption.
        rewrite IH by assumption. rewrite N.add_assoc. reflexivity.
  Qed.

  (** ** duplicate inputs *)
  Lemma check_input_set_spec l seen k :
    match check_input_set_from k seen l with
    | None => NoDup (map in_prevout l) /\
              forall i, In i l -> in_prevout i ∉ seen
    | Some e => exists n b, e = InputError duplicate None (k + N.of_nat n) /\
         nth_error l n = Some b /\
         (in_prevout b ∈ seen \/
          exists j a, (j < n)%nat /\ nth_error l j = Some a /\ in_prevout a = in_prevout b) /\
         (forall m c, (m < n)%nat -> nth_error l m = Some c ->
            in_prevout c ∉ seen /\
            forall j a, (j < m)%nat -> nth_error l j = Some a -> in_prevout a <> in_prevout c)
    end.
  Proof.
    revert seen k; induction l as [|i l IH]; intros seen k; simpl.
    - split; [constructor|]. intros i [].
    - destruct (bool_decide_reflect (in_prevout i ∈ seen)) as [Hin|Hin].
      + exists 0%nat, i. split; [f_equal; lia|]. split; [reflexivity|].
        split; [now left|]. intros; lia.
      + specialize (IH (in_prevout i :: seen) (k + 1)).
        destruct (check_input_set_from _ _ l) as [e|] eqn:E.
        * destruct IH as (n & b & -> & Hn & Hb & Hf).
          exists (S n), b. split; [f_equal; lia|]. split; [exact Hn|]. split.
          -- destruct Hb as [Hb|(j & a & Hj & Ha & Hab)].
             ++ apply elem_of_cons in Hb as [Hb|Hb]; [|now left].
                right. exists 0%nat, i. split; [lia|]. split; [reflexivity|congruence].
             ++ right. exists (S j), a. split; [lia|]. split; assumption.
          -- intros [|m] c Hm Hc; simpl in Hc.
             ++ inversion Hc; subst. split; [assumption|]. intros; lia.
             ++ destruct (Hf m c ltac:(lia) Hc) as [H1 H2].
                rewrite elem_of_cons in H1. split; [tauto|].
                intros [|j] a Hj Ha; simpl in Ha.
                ** inversion Ha; subst. intros Heq. apply H1. now left.
                ** apply (H2 j); [lia|assumption].
        * destruct IH as [H1 H2]. split.
          -- constructor; [|assumption]. rewrite elem_of_list_In, in_map_iff.
             intros (x & Hx & Hi). apply (H2 x Hi). rewrite Hx. left.
          -- intros x [->|Hx]; [assumption|]. intros Hs. apply (H2 x Hx). now right.
  Qed.

  (** ** zero values *)
  Lemma check_inputs_spec l k :
    match check_inputs_from k l with
    | None => forall i, In i l -> 1 <= out_value (in_data i)
    | Some e => exists n b, e = InputError data_error (Some zero_value) (k + N.of_nat n) /\
        nth_error l n = Some b /\ out_value (in_data b) = 0 /\
        forall m c, (m < n)%nat -> nth_error l m = Some c -> 1 <= out_value (in_data c)
    end.
  Proof.
    revert k; induction l as [|i l IH]; intros k; simpl; [intros i []|].
    unfold check_input_structure, check_output_value.
    destruct (out_value (in_data i) <? 1) eqn:E.
    - exists 0%nat, i. split; [f_equal; lia|]. split; [reflexivity|]. split; [lia|].
      intros; lia.
    - specialize (IH (k + 1)). destruct (check_inputs_from _ l) as [e|].
      + destruct IH as (n & b & -> & Hn & Hv & Hf). exists (S n), b.
        split; [f_equal; lia|]. split; [exact Hn|]. split; [exact Hv|].
        intros [|m] c Hm Hc; simpl in Hc; [inversion Hc; subst; lia|].
        apply (Hf m); [lia|assumption].
      + intros x [->|Hx]; [lia|auto].
  Qed.

  Lemma check_outputs_spec l k :
    match check_outputs_from k l with
    | None => forall i, In i l -> 1 <= out_value i
    | Some e => exists n b, e = OutputError zero_value (k + N.of_nat n) /\
        nth_error l n = Some b /\ out_value b = 0 /\
        forall m c, (m < n)%nat -> nth_error l m = Some c -> 1 <= out_value c
    end.
  Proof.
    revert k; induction l as [|i l IH]; intros k; simpl; [intros i []|].
    unfold check_output_value.
    destruct (out_value i <? 1) eqn:E.
    - exists 0%nat, i. split; [f_equal; lia|]. split; [reflexivity|]. split; [lia|].
      intros; lia.
    - specialize (IH (k + 1)). destruct (check_outputs_from _ l) as [e|].
      + destruct IH as (n & b & -> & Hn & Hv & Hf). exists (S n), b.
        split; [f_equal; lia|]. split; [exact Hn|]. split; [exact Hv|].
        intros [|m] c Hm Hc; simpl in Hc; [inversion Hc; subst; lia|].
        apply (Hf m); [lia|assumption].
      + intros x [->|Hx]; [lia|auto].
  Qed.

  (** ** witnesses *)
  Lemma split_wit (r : bytes) : length r = 96%nat ->
    exists pk sg, r = pk ++ sg /\ length pk = 32%nat /\ length sg = 64%nat.
  Proof.
    intros H. exists (firstn 32 r), (skipn 32 r).
    rewrite firstn_length, skipn_length, firstn_skipn. split; [reflexivity|lia].
  Qed.

  Lemma check_p2pk_parts tx commit pk sg :
    length pk = 32%nat -> length sg = 64%nat ->
    check_p2pk_witness sha pk_parse schnorr tx (0 :: pk ++ sg) commit
    = if sha (0 :: pk) =? commit then
        if pk_parse (be_value pk) then
          if schnorr (be_value pk) (tx_id sha tx) (be_value sg) then None
          else Some invalid_signature
        else Some invalid_public_key
      else Some program_mismatch.
  Proof.
    intros Hp Hs. unfold check_p2pk_witness, check_p2pk_witness_commitment,
      check_p2pk_witness_signature, p2pk_witness_len, p2pk_witness_prog_len.
    simpl length. rewrite app_length, Hp, Hs. simpl Nat.eqb. cbn [negb].
    change (skipn 1 (0 :: pk ++ sg)) with (pk ++ sg).
    change (skipn 33 (0 :: pk ++ sg)) with (skipn 32 (pk ++ sg)).
    change (firstn 33 (0 :: pk ++ sg)) with (0 :: firstn 32 (pk ++ sg)).
    rewrite firstn_app, skipn_app, Hp, Nat.sub_diag, firstn_O, app_nil_r, skipn_O.
    rewrite (firstn_all2 pk), (skipn_all2 pk) by lia.
    change ([] ++ sg) with sg. rewrite (firstn_all2 sg) by lia.
    destruct (_ =? _); [|reflexivity].
    destruct (pk_parse _); [|reflexivity]. simpl.
    destruct (schnorr _ _ _); reflexivity.
  Qed.

  Lemma check_witness_ok tx wit commit :
    check_witness sha pk_parse schnorr tx wit commit = None <-> authorises tx commit wit.
  Proof.
    split.
    - destruct wit as [|t r]; [discriminate|]. simpl check_witness.
      destruct (t =? 0) eqn:Et; [|discriminate]. apply N.eqb_eq in Et; subst.
      intros H. destruct (Nat.eq_dec (length r) 96%nat) as [Hl|Hl].
      + destruct (split_wit r Hl) as (pk & sg & -> & Hp & Hs).
        rewrite check_p2pk_parts in H by assumption.
        destruct (_ =? _) eqn:E; [|discriminate]. apply N.eqb_eq in E.
        destruct (pk_parse _) eqn:E1; [|discriminate].
        destruct (schnorr _ _ _) eqn:E2; [|discriminate].
        exists pk, sg. repeat split; assumption.
      + unfold check_p2pk_witness in H.
        destruct (Nat.eqb _ _) eqn:E; [|discriminate].
        apply Nat.eqb_eq in E. simpl in E. unfold p2pk_witness_len in E. lia.
    - intros (pk & sg & -> & Hp & Hs & Hc & Hk & Hv). simpl check_witness.
      change (0 =? 0) with true. cbv iota. rewrite check_p2pk_parts by assumption.
      rewrite Hk, Hv, Hc, N.eqb_refl. reflexivity.
  Qed.

  Lemma check_witness_err tx wit commit c :
    check_witness sha pk_parse schnorr tx wit commit = Some c <-> witness_fault tx commit wit c.
  Proof.
    destruct wit as [|t r].
    { simpl. split.
      - intros H; inversion H; subst. reflexivity.
      - destruct c; simpl; intros H; [reflexivity| | | | |].
        + destruct H as (? & ? & He & _); discriminate.
        + destruct H as (? & He & _); discriminate.
        + destruct H as (? & ? & He & _); discriminate.
        + destruct H as (? & ? & He & _); discriminate.
        + destruct H as (? & ? & He & _); discriminate. }
    simpl check_witness. destruct (t =? 0) eqn:Et.
    2:{ apply N.eqb_neq in Et. split.
        - intros H; inversion H; subst. simpl. eauto.
        - destruct c; simpl; intros H; [discriminate|reflexivity| | | |]; exfalso.
          + destruct H as (? & He & _); inversion He; congruence.
          + destruct H as (? & ? & He & _); inversion He; congruence.
          + destruct H as (? & ? & He & _); inversion He; congruence.
          + destruct H as (? & ? & He & _); inversion He; congruence. }
    apply N.eqb_eq in Et; subst.
    destruct (Nat.eq_dec (length r) 96%nat) as [Hl|Hl].
    - destruct (split_wit r Hl) as (pk & sg & -> & Hp & Hs).
      rewrite check_p2pk_parts by assumption.
      assert (U : forall pk' sg', 0 :: pk ++ sg = 0 :: pk' ++ sg' -> length pk' = 32%nat ->
                  pk' = pk /\ sg' = sg).
      { intros pk' sg' He Hl'. inversion He as [He'].
        apply app_inj_1 in He'; [|congruence]. destruct He'; subst; auto. }
      split.
      + destruct (_ =? _) eqn:E.
        * apply N.eqb_eq in E. destruct (pk_parse _) eqn:E1.
          -- destruct (schnorr _ _ _) eqn:E2; [discriminate|].
             intros H; inversion H; subst. simpl. exists pk, sg. repeat split; auto.
          -- intros H; inversion H; subst. simpl. exists pk, sg. repeat split; auto.
        * apply N.eqb_neq in E. intros H; inversion H; subst. simpl.
          exists pk, sg. repeat split; auto.
      + destruct c; simpl; intros H.
        * discriminate.
        * destruct H as (t & r & He & Ht). inversion He; subst. congruence.
        * destruct H as (r & He & Hn). rewrite Hl in Hn. congruence.
        * destruct H as (pk' & sg' & He & H1 & H2 & H3).
          destruct (U _ _ He H1); subst.
          apply N.eqb_neq in H3. rewrite H3. reflexivity.
        * destruct H as (pk' & sg' & He & H1 & H2 & H3 & H4).
          destruct (U _ _ He H1); subst. rewrite N.eqb_refl, H4. reflexivity.
        * destruct H as (pk' & sg' & He & H1 & H2 & H3 & H4 & H5).
          destruct (U _ _ He H1); subst. rewrite N.eqb_refl, H4, H5. reflexivity.
    - unfold check_p2pk_witness. destruct (Nat.eqb _ _) eqn:E.
      { apply Nat.eqb_eq in E. simpl in E. unfold p2pk_witness_len in E. lia. }
      apply Nat.eqb_neq in E. simpl negb. cbv iota. split.
      + intros H; inversion H; subst. simpl. exists r. split; [reflexivity|].
        exact E.
      + assert (C : forall pk sg, 0 :: r = 0 :: pk ++ sg -> length pk = 32%nat ->
                    length sg = 64%nat -> False).
        { intros pk sg He H1 H2. inversion He; subst. rewrite app_length in Hl. lia. }
        destruct c; simpl; intros H; try reflexivity.
        * discriminate.
        * destruct H as (t & r' & He & Ht). inversion He; subst. congruence.
        * destruct H as (pk & sg & He & H1 & H2 & _). exfalso; eauto.
        * destruct H as (pk & sg & He & H1 & H2 & _). exfalso; eauto.
        * destruct H as (pk & sg & He & H1 & H2 & _). exfalso; eauto.
  Qed.

  Lemma check_witnesses_spec tx ws ins k : length ws = length ins ->
    match check_witnesses_from sha pk_parse schnorr tx k ws ins with
    | WitOk => forall i inp wit, nth_error ins i = Some inp -> nth_error ws i = Some wit ->
                 authorises tx (out_commit (in_data inp)) wit
    | WitErr e => exists n inp wit c, e = WitnessError c (k + N.of_nat n) /\
        nth_error ins n = Some inp /\ nth_error ws n = Some wit /\
        witness_fault tx (out_commit (in_data inp)) wit c /\
        forall m inp' wit', (m < n)%nat -> nth_error ins m = Some inp' ->
          nth_error ws m = Some wit' -> authorises tx (out_commit (in_data inp')) wit'
    | WitnessOob => False
    end.
  Proof.
    revert ins k; induction ws as [|w ws IH]; intros [|i ins] k Hl; simpl in *; try discriminate.
    - intros [|n] inp wit H; discriminate.
    - destruct (check_witness _ _ _ tx w _) as [c|] eqn:E.
      + apply check_witness_err in E. exists 0%nat, i, w, c.
        split; [f_equal; lia|]. repeat split; auto. intros; lia.
      + apply check_witness_ok in E. specialize (IH ins (k + 1) ltac:(lia)).
        destruct (check_witnesses_from _ _ _ _ _ _ _) as [|e|].
        * intros [|n] inp wit H1 H2; simpl in *.
          -- inversion H1; inversion H2; subst; assumption.
          -- eauto.
        * destruct IH as (n & inp & wit & c & -> & H1 & H2 & H3 & H4).
          exists (S n), inp, wit, c. split; [f_equal; lia|]. repeat split; auto.
          intros [|m] inp' wit' Hm Hi Hw; simpl in *.
          -- inversion Hi; inversion Hw; subst; assumption.
          -- apply (H4 m); auto; lia.
        * assumption.
  Qed.

  Lemma authorises_no_fault tx commit wit c :
    authorises tx commit wit -> witness_fault tx commit wit c -> False.
  Proof. intros H1 H2. apply check_witness_ok in H1. apply check_witness_err in H2. congruence. Qed.

  Lemma witness_fault_unique tx commit wit c d :
    witness_fault tx commit wit c -> witness_fault tx commit wit d -> c = d.
  Proof. intros H1 H2. apply check_witness_err in H1, H2. congruence. Qed.

  Lemma total_pos vs : Forall (fun v => 1 <= v) vs -> vs <> [] -> 1 <= total vs.
  Proof. destruct 1; [congruence|]. simpl. lia. Qed.

  Lemma nth_map_val {A} (f : A -> N) l n x : nth_error (map f l) n = Some x ->
    exists a, nth_error l n = Some a /\ f a = x.
  Proof. rewrite nth_error_map. destruct (nth_error l n); simpl; intros H; inversion H; eauto. Qed.

  Ltac fx := f_equal; lia.
  Ltac before := right; left; simpl; lia.

  (** The result of check_tx is the first fault, or there is none. *)
  Theorem check_tx_exact tx : typed_tx tx ->
    match check_tx tx with
    | Accepted => valid_tx tx
    | Rejected e => first_fault tx e
    | OutOfBounds => False
    end.
  Proof.
    intros [Ti To]. unfold ValidationModel.check_tx, check_tx_structure.
    unfold check_input_count. destruct (tx_inputs tx) as [|i0 ir] eqn:Ei.
    { split; [exact Ei|]. intros e' H.
      destruct e' as [[] d k|[] k|c k|[]]; simpl in H; try (before; fail); auto. }
    assert (Hi : tx_inputs tx <> []) by congruence. rewrite <- Ei. clear Ei.
    unfold check_output_count. destruct (tx_outputs tx) as [|o0 or] eqn:Eo.
    { split; [exact Eo|]. intros e' H.
      destruct e' as [[] d k|[] k|c k|[]]; simpl in H; try (before; fail); auto. contradiction. }
    assert (Ho : tx_outputs tx <> []) by congruence. rewrite <- Eo. clear Eo.
    unfold check_witness_count. destruct (Nat.eqb _ _) eqn:Ew.
    2:{ apply Nat.eqb_neq in Ew. split; [simpl; congruence|]. intros e' H.
        destruct e' as [[] d k|[] k|c k|[]]; simpl in H; try (before; fail); auto; contradiction. }
    apply Nat.eqb_eq in Ew. symmetry in Ew.
    unfold check_input_set. pose proof (check_input_set_spec (tx_inputs tx) [] 0) as Hd.
    destruct (check_input_set_from 0 [] (tx_inputs tx)) as [e|] eqn:Ed.
    { destruct Hd as (n & b & -> & Hn & Hb & Hf). split.
      - simpl. split; [reflexivity|]. rewrite N.add_0_l, Nat2N.id.
        destruct Hb as [Hb|(j & a & Hj & Ha & Hab)]; [inversion Hb|].
        exists j, a, b. repeat split; auto.
      - intros e' H. destruct e' as [[] d k|[] k|c k|[]]; simpl in H; try (before; fail); auto; try contradiction.
        + destruct H as (-> & j & a & b' & Hj & Ha & Hb' & Hab).
          destruct (lt_eq_lt_dec (N.to_nat k) n) as [[L|L]|L].
          * destruct (Hf _ _ L Hb') as [_ H2]. exfalso. eapply H2; eauto.
          * left. f_equal. lia.
          * right; right. simpl. lia. }
    destruct Hd as [Hnd _].
    assert (Hdist : forall i j a b,
      nth_error (tx_inputs tx) i = Some a -> nth_error (tx_inputs tx) j = Some b ->
      in_prevout a = in_prevout b -> i = j).
    { intros i j a b Ha Hb Hab.
      apply NoDup_ListNoDup in Hnd. rewrite List.NoDup_nth_error in Hnd.
      apply Hnd.
      - rewrite map_length. apply nth_error_Some. congruence.
      - rewrite !nth_error_map, Ha, Hb. simpl. congruence. }
    assert (Hnodup : forall d k, violates tx (InputError duplicate d k) -> False).
    { intros d k (_ & j & a & b & Hj & Ha & Hb & Hab).
      pose proof (Hdist _ _ _ _ Ha Hb Hab). lia. }
    pose proof (check_inputs_spec (tx_inputs tx) 0) as Hz.
    destruct (check_inputs_from 0 (tx_inputs tx)) as [e|].
    { destruct Hz as (n & b & -> & Hn & Hv & Hf). split.
      - simpl. split; [reflexivity|]. rewrite N.add_0_l, Nat2N.id. unfold in_values.
        rewrite nth_error_map, Hn. simpl. congruence.
      - intros e' H. destruct e' as [[] d k|[] k|c k|[]]; try (simpl; before; fail);
          try (simpl in H; contradiction); try (exfalso; eapply Hnodup; eauto; fail).
        + destruct H as (-> & H). apply nth_map_val in H as (a & Ha & Hva).
          destruct (lt_eq_lt_dec (N.to_nat k) n) as [[L|L]|L].
          * specialize (Hf _ _ L Ha). lia.
          * left. f_equal. lia.
          * right; right. simpl. lia. }
    assert (Hin1 : Forall (fun v => 1 <= v) (in_values tx)).
    { apply List.Forall_forall. intros v Hv. apply in_map_iff in Hv as (x & <- & Hx). auto. }
    assert (Hnoz : forall d k, violates tx (InputError data_error d k) -> False).
    { intros d k [_ H]. apply nth_error_In in H.
      rewrite List.Forall_forall in Hin1. specialize (Hin1 _ H). lia. }
    pose proof (check_outputs_spec (tx_outputs tx) 0) as Hy.
    destruct (check_outputs_from 0 (tx_outputs tx)) as [e|].
    { destruct Hy as (n & b & -> & Hn & Hv & Hf). split.
      - simpl. rewrite N.add_0_l, Nat2N.id. unfold out_values.
        rewrite nth_error_map, Hn. simpl. congruence.
      - intros e' H. destruct e' as [[] d k|[] k|c k|[]]; try (simpl; before; fail);
          try (simpl in H; contradiction); try (exfalso; eapply Hnodup; eauto; fail);
          try (exfalso; eapply Hnoz; eauto; fail).
        + simpl in H. apply nth_map_val in H as (a & Ha & Hva).
          destruct (lt_eq_lt_dec (N.to_nat k) n) as [[L|L]|L].
          * specialize (Hf _ _ L Ha). lia.
          * left. f_equal. lia.
          * right; right. simpl. lia. }
    assert (Hout1 : Forall (fun v => 1 <= v) (out_values tx)).
    { apply List.Forall_forall. intros v Hv. apply in_map_iff in Hv as (x & <- & Hx). auto. }
    assert (Hnoy : forall k, violates tx (OutputError zero_value k) -> False).
    { intros k H. simpl in H. apply nth_error_In in H.
      rewrite List.Forall_forall in Hout1. specialize (Hout1 _ H). lia. }
    assert (Hr : forall vs, Forall (fun v => v < 2 ^ 64) vs -> Forall (fun v => 1 <= v) vs ->
      Forall (fun v => 1 <= v < two64) vs).
    { intros vs H1 H2. rewrite List.Forall_forall in *. intros v Hv. specialize (H1 v Hv).
      specialize (H2 v Hv). change two64 with (2 ^ 64). lia. }
    unfold check_in_out_set. fold (in_values tx). fold (out_values tx).
    rewrite checked_total_spec by (auto; reflexivity).
    rewrite checked_total_spec by (auto; reflexivity).
    rewrite !N.add_0_l. change two64 with (2 ^ 64).
    assert (Hover : 2 ^ 64 <= total (in_values tx) \/ 2 ^ 64 <= total (out_values tx) ->
      first_fault tx (TxError value_overflow)).
    { intros Hov. split; [exact Hov|].
      intros e' H. destruct e' as [[] d k|[] k|c k|[]]; try (simpl; before; fail);
        try (simpl in H; contradiction); try (exfalso; eapply Hnodup; eauto; fail);
        try (exfalso; eapply Hnoz; eauto; fail); try (exfalso; eapply Hnoy; eauto; fail).
      left; reflexivity. }
    destruct (total (in_values tx) <? 2 ^ 64) eqn:L1; [|apply Hover; left; lia].
    destruct (total (out_values tx) <? 2 ^ 64) eqn:L2; [|apply Hover; right; lia].
    destruct (_ =? _) eqn:Eq.
    2:{ apply N.eqb_neq in Eq. split; [exact Eq|].
        intros e' H. destruct e' as [[] d k|[] k|c k|[]]; try (simpl; before; fail);
        try (simpl in H; contradiction); try (exfalso; eapply Hnodup; eauto; fail);
        try (exfalso; eapply Hnoz; eauto; fail); try (exfalso; eapply Hnoy; eauto; fail).
        - left; reflexivity.
        - simpl in H. exfalso. lia. }
    apply N.eqb_eq in Eq.
    pose proof (check_witnesses_spec tx (tx_witness tx) (tx_inputs tx) 0 Ew) as Hw.
    destruct (check_witnesses_from _ _ _ _ _ _ _) as [|e|].
    - split; auto.
      + rewrite List.Forall_forall in Hin1; auto.
      + rewrite List.Forall_forall in Hout1; auto.
      + lia.
    - destruct Hw as (n & inp & wit & c & -> & H1 & H2 & H3 & H4). split.
      + simpl. rewrite N.add_0_l, Nat2N.id. eauto.
      + intros e' H. destruct e' as [[] d k|[] k|c' k|[]]; try (simpl; before; fail);
        try (simpl in H; contradiction); try (exfalso; eapply Hnodup; eauto; fail);
        try (exfalso; eapply Hnoz; eauto; fail); try (exfalso; eapply Hnoy; eauto; fail);
        try (simpl in H; exfalso; lia).
        destruct H as (inp' & wit' & I1 & I2 & I3).
        destruct (lt_eq_lt_dec (N.to_nat k) n) as [[L|L]|L].
        * exfalso. eapply authorises_no_fault; [eapply (H4 (N.to_nat k))|]; eauto.
        * subst n. left. rewrite I1 in H1. rewrite I2 in H2. inversion H1; inversion H2; subst.
          rewrite (witness_fault_unique _ _ _ _ _ H3 I3). f_equal. lia.
        * right; right. simpl. lia.
    - contradiction.
  Qed.

  Lemma valid_no_fault tx e : valid_tx tx -> violates tx e -> False.
  Proof.
    intros V H. destruct e as [[] d k|[] k|c k|[]]; simpl in H.
    - destruct H as (_ & j & a & b & Hj & Ha & Hb & Hab).
      pose proof (v_distinct _ _ _ _ V _ _ _ _ Ha Hb Hab). lia.
    - destruct H as [_ H]. apply nth_error_In in H.
      pose proof (v_in_pos _ _ _ _ V _ H). lia.
    - apply nth_error_In in H. pose proof (v_out_pos _ _ _ _ V _ H). lia.
    - destruct H as (inp & wit & H1 & H2 & H3).
      eapply authorises_no_fault; [eapply (v_auth _ _ _ _ V)|]; eauto.
    - exact (v_inputs _ _ _ _ V H).
    - exact (v_outputs _ _ _ _ V H).
    - exact (H (v_witness _ _ _ _ V)).
    - exact (H (v_balance _ _ _ _ V)).
    - pose proof (v_balance _ _ _ _ V). pose proof (v_no_overflow _ _ _ _ V). lia.
  Qed.

  Lemma first_fault_unique tx e e' : first_fault tx e -> first_fault tx e' -> e = e'.
  Proof.
    intros [V1 F1] [V2 F2]. destruct (F1 _ V2) as [->|B1]; [reflexivity|].
    destruct (F2 _ V1) as [->|B2]; [reflexivity|].
    unfold reported_before in *. lia.
  Qed.

  Theorem check_tx_accepts tx : typed_tx tx -> (check_tx tx = Accepted <-> valid_tx tx).
  Proof.
    intros T. pose proof (check_tx_exact tx T) as H. split.
    - intros E; rewrite E in H; exact H.
    - intros V. destruct (check_tx tx) as [|e|]; [reflexivity| |contradiction].
      destruct H as [H _]. exfalso. eapply valid_no_fault; eauto.
  Qed.

  Theorem check_tx_rejects tx e : typed_tx tx ->
    (check_tx tx = Rejected e <-> first_fault tx e).
  Proof.
    intros T. pose proof (check_tx_exact tx T) as H. split.
    - intros E; rewrite E in H; exact H.
    - intros F. destruct (check_tx tx) as [|e'|]; [|f_equal; eapply first_fault_unique; eauto|contradiction].
      exfalso. eapply valid_no_fault; [exact H|apply F].
  Qed.

  Theorem check_tx_no_oob tx : typed_tx tx -> check_tx tx <> OutOfBounds.
  Proof. intros T E. pose proof (check_tx_exact tx T) as H. rewrite E in H. exact H. Qed.
End Proofs.
