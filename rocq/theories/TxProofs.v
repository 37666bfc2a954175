From Coq Require Import NArith List Bool Lia ZifyBool ZifyNat ZifyN.
From stdpp Require Import base decidable list.
From Verif Require Import Base CodecModel CodecProofs TxModel TxSpec MsgProofs.
Import ListNotations.
Open Scope N_scope.

Section Tx.
  Variable sha : bytes -> hash.

  Lemma sha_eq x y : sha x = sha y -> x = y \/ collision sha.
  Proof.
    intros H. destruct (decide (x = y)) as [->|N]; [now left|].
    right. exists x, y. auto.
  Qed.

  (** The two ways to compute an output's UHS ID hash the same bytes. *)
  Lemma uhs_id_input id i o :
    uhs_id_from_output sha id i o = input_hash sha (Input (OutPoint id i) o).
  Proof.
    unfold uhs_id_from_output, input_hash. rewrite !make_buffer_ok. reflexivity.
  Qed.

  Lemma uhs_outputs_nth id outs k i :
    nth_error (uhs_outputs_from sha id k outs) i
    = match nth_error outs i with
      | Some o => Some (uhs_id_from_output sha id (k + N.of_nat i) o)
      | None => None
      end.
  Proof.
    revert k i; induction outs as [|o outs IH]; intros k [|i]; simpl; auto.
    - do 2 f_equal. lia.
    - rewrite IH. destruct (nth_error outs i); [|reflexivity].
      do 2 f_equal. lia.
  Qed.

  Theorem output_id_correspondence tx i :
    nth_error (ctx_outputs (to_compact sha tx)) i
    = option_map (input_hash sha) (input_from_output sha tx i).
  Proof.
    unfold to_compact, input_from_output, input_from_output_id. simpl.
    rewrite uhs_outputs_nth. destruct (nth_error _ i) as [o|]; [|reflexivity].
    cbn [option_map]. rewrite uhs_id_input. reflexivity.
  Qed.

  Theorem spend_id_correspondence tx i inp tx2 k :
    input_from_output sha tx i = Some inp ->
    nth_error (tx_inputs tx2) k = Some inp ->
    nth_error (ctx_inputs (to_compact sha tx2)) k
    = nth_error (ctx_outputs (to_compact sha tx)) i.
  Proof.
    intros H1 H2. rewrite output_id_correspondence, H1. simpl.
    rewrite nth_error_map, H2. reflexivity.
  Qed.

  Theorem input_id_injective a b : dom c_input a -> dom c_input b ->
    input_hash sha a = input_hash sha b -> a = b \/ collision sha.
  Proof.
    intros Da Db H. apply sha_eq in H as [H|H]; [|now right].
    rewrite !make_buffer_ok in H. left. eapply lawful_inj; eauto using lawful_input.
  Qed.

  Lemma dom_input_of_output tx i o : typed_full_tx tx -> tx_id sha tx < 2 ^ 256 ->
    nth_error (tx_outputs tx) i = Some o ->
    dom c_input (Input (OutPoint (tx_id sha tx) (N.of_nat i)) o).
  Proof.
    intros T Hs H. unfold typed_full_tx in T. cbn in T.
    destruct T as [[_ [Hl Ho]] _].
    pose proof (nth_error_In _ _ H) as Hin.
    rewrite List.Forall_forall in Ho. specialize (Ho o Hin).
    assert (i < length (tx_outputs tx))%nat by (apply nth_error_Some; congruence).
    cbn. repeat split; try exact Hs; try apply Ho.
    unfold two64, len in *. change (256 ^ 8) with (2 ^ 64). lia.
  Qed.

  Theorem output_ids_distinct tx1 tx2 i j h :
    typed_full_tx tx1 -> typed_full_tx tx2 ->
    (forall b, sha b < 2 ^ 256) ->
    nth_error (ctx_outputs (to_compact sha tx1)) i = Some h ->
    nth_error (ctx_outputs (to_compact sha tx2)) j = Some h ->
    (tx_id sha tx1 = tx_id sha tx2 /\ i = j /\
     nth_error (tx_outputs tx1) i = nth_error (tx_outputs tx2) j) \/ collision sha.
  Proof.
    intros T1 T2 Hs. rewrite !output_id_correspondence.
    unfold input_from_output, input_from_output_id.
    destruct (nth_error (tx_outputs tx1) i) as [o1|] eqn:E1; [|discriminate].
    destruct (nth_error (tx_outputs tx2) j) as [o2|] eqn:E2; [|discriminate].
    cbn [option_map]. intros H1 H2.
    assert (H : input_hash sha (Input (OutPoint (tx_id sha tx1) (N.of_nat i)) o1)
      = input_hash sha (Input (OutPoint (tx_id sha tx2) (N.of_nat j)) o2)) by congruence.
    apply input_id_injective in H; [|apply dom_input_of_output; auto; apply Hs..].
    destruct H as [H|H]; [|now right]. left. inversion H; subst.
    repeat split; auto. lia.
  Qed.

  Theorem tx_id_ignores_witness ins outs w1 w2 :
    tx_id sha (FullTx ins outs w1) = tx_id sha (FullTx ins outs w2).
  Proof. reflexivity. Qed.

  Theorem tx_id_commits a b : typed_full_tx a -> typed_full_tx b ->
    tx_id sha a = tx_id sha b ->
    (tx_inputs a = tx_inputs b /\ tx_outputs a = tx_outputs b) \/ collision sha.
  Proof.
    intros Ta Tb H. apply sha_eq in H as [H|H]; [|now right]. left.
    rewrite !make_buffer_ok in H.
    unfold typed_full_tx in *. cbn [dom c_full_tx c_iso c_pair fst snd] in *.
    destruct Ta as [[A1 A2] _], Tb as [[B1 B2] _].
    assert (E : enc (c_pair (c_vec c_input) (c_vec c_output)) (tx_inputs a, tx_outputs a)
              = enc (c_pair (c_vec c_input) (c_vec c_output)) (tx_inputs b, tx_outputs b)).
    { unfold enc, c_pair; cbn [wr fst snd]. rewrite !concat_app. exact H. }
    apply lawful_inj in E; [inversion E; auto|auto with codec| |]; split; assumption.
  Qed.

  Theorem compact_hash_ignores_attestations id ins outs a1 a2 :
    ctx_hash sha (CompactTx id ins outs a1) = ctx_hash sha (CompactTx id ins outs a2).
  Proof. reflexivity. Qed.

  Theorem compact_hash_commits a b : typed_compact_tx a -> typed_compact_tx b ->
    ctx_hash sha a = ctx_hash sha b ->
    (ctx_id a = ctx_id b /\ ctx_inputs a = ctx_inputs b /\ ctx_outputs a = ctx_outputs b)
    \/ collision sha.
  Proof.
    intros Ta Tb H. apply sha_eq in H as [H|H]; [|now right]. left.
    rewrite !make_buffer_ok in H.
    assert (D : forall t, typed_compact_tx t ->
      dom c_compact_tx (CompactTx (ctx_id t) (ctx_inputs t) (ctx_outputs t) [])).
    { intros t T. unfold typed_compact_tx in T.
      cbn [dom c_compact_tx c_iso c_pair c_map fst snd ctx_id ctx_inputs ctx_outputs ctx_atts] in *.
      destruct T as [T _]. split; [exact T|]. split; [reflexivity|]. split; constructor. }
    apply (lawful_inj c_compact_tx) in H; auto using lawful_compact_tx.
    inversion H; auto.
  Qed.

  Variable pk_parse : N -> bool.
  Variable schnorr : N -> hash -> N -> bool.

  Theorem check_attestations_exact t known threshold :
    typed_compact_tx t ->
    check_attestations sha pk_parse schnorr t known threshold = true <->
    sufficiently_attested pk_parse schnorr (ctx_hash sha t) t known threshold.
  Proof.
    intros T. assert (ND : NoDup (map fst (ctx_atts t))) by apply T.
    unfold check_attestations, sufficiently_attested.
    assert (F : forallb (fun att => bool_decide (fst att ∈ known) && ctx_verify sha pk_parse schnorr t att)
             (ctx_atts t) = true <->
       forall pk sg, In (pk, sg) (ctx_atts t) ->
         In pk known /\ pk_parse pk = true /\ schnorr pk (ctx_hash sha t) sg = true).
    { rewrite forallb_forall. split.
      - intros H pk sg Hin. specialize (H _ Hin). unfold ctx_verify in H. simpl in H.
        apply andb_true_iff in H as [H1 H2]. apply bool_decide_eq_true in H1.
        apply elem_of_list_In in H1. apply andb_true_iff in H2. tauto.
      - intros H [pk sg] Hin. destruct (H _ _ Hin) as (H1 & H2 & H3).
        unfold ctx_verify. simpl. rewrite H2, H3. simpl. rewrite andb_true_r.
        apply bool_decide_eq_true. now apply elem_of_list_In. }
    destruct (len (ctx_atts t) <? threshold) eqn:E.
    - split; [discriminate|]. intros [(ks & Hnd & Hl & Hk) _]. exfalso.
      assert (length ks <= length (map fst (ctx_atts t)))%nat.
      { apply List.NoDup_incl_length; [assumption|].
        intros pk Hpk. destruct (Hk pk Hpk) as [_ (sg & Hin & _)].
        apply in_map_iff. exists (pk, sg). auto. }
      rewrite map_length in H. unfold len in E. lia.
    - rewrite F. split.
      + intros H. split; [|exact H].
        exists (map fst (ctx_atts t)). split; [now apply NoDup_ListNoDup|].
        split; [rewrite map_length; unfold len in E; lia|].
        intros pk Hpk. apply in_map_iff in Hpk as ([pk' sg] & <- & Hin). simpl.
        destruct (H _ _ Hin) as (H1 & H2 & H3). split; [assumption|].
        exists sg. auto.
      + intros [_ H]. exact H.
  Qed.
End Tx.

Lemma input_from_output_spec sha tx i :
  input_from_output sha tx i
  = option_map (fun o => Input (OutPoint (tx_id sha tx) (N.of_nat i)) o)
      (nth_error (tx_outputs tx) i).
Proof.
  unfold input_from_output, input_from_output_id. destruct (nth_error _ _); reflexivity.
Qed.
