From Coq Require Import NArith List Bool Lia.
From Verif Require Import Base CodecModel CodecProofs TxModel ValidationModel ValidationSpec ValidationProofs.
Import ListNotations.
Open Scope N_scope.

Section S.
  Variable sha : bytes -> hash.
  Variable pk_parse : N -> bool.
  Variable schnorr : N -> hash -> N -> bool.
  Notation check_tx := (check_tx sha pk_parse schnorr).

  Lemma value_conserved tx : typed_tx tx -> check_tx tx = Accepted ->
    total (map (fun i => out_value (in_data i)) (tx_inputs tx))
    = total (map out_value (tx_outputs tx)) /\
    total (map out_value (tx_outputs tx)) <= 2 ^ 64 - 1 /\
    (forall i, In i (tx_inputs tx) -> 1 <= out_value (in_data i)) /\
    (forall o, In o (tx_outputs tx) -> 1 <= out_value o).
  Proof.
    intros T H. apply check_tx_accepts in H; [|assumption].
    pose proof (v_balance _ _ _ _ H) as B. pose proof (v_no_overflow _ _ _ _ H) as O.
    unfold in_values, out_values in *. split; [exact B|]. split.
    - rewrite B in O. lia.
    - split.
      + intros i Hi. apply (v_in_pos _ _ _ _ H). apply in_map_iff. eauto.
      + intros o Ho. apply (v_out_pos _ _ _ _ H). now apply in_map.
  Qed.

  Lemma well_formed tx : typed_tx tx -> check_tx tx = Accepted ->
    tx_inputs tx <> [] /\ tx_outputs tx <> [] /\
    length (tx_witness tx) = length (tx_inputs tx) /\
    NoDup (map in_prevout (tx_inputs tx)).
  Proof.
    intros T H. apply check_tx_accepts in H; [|assumption].
    split; [apply H|]. split; [apply H|]. split; [apply H|].
    apply NoDup_nth_error. intros i j Hi Hij. rewrite map_length in Hi.
    rewrite !nth_error_map in Hij.
    destruct (nth_error (tx_inputs tx) i) as [a|] eqn:Ea;
      [|apply nth_error_None in Ea; lia].
    destruct (nth_error (tx_inputs tx) j) as [b|] eqn:Eb; [|discriminate].
    simpl in Hij. eapply (v_distinct _ _ _ _ H); eauto. congruence.
  Qed.

  Lemma inputs_authorised tx i inp : typed_tx tx -> check_tx tx = Accepted ->
    nth_error (tx_inputs tx) i = Some inp ->
    exists pk sg,
      nth_error (tx_witness tx) i = Some (0 :: pk ++ sg) /\
      length pk = 32%nat /\ length sg = 64%nat /\
      sha (0 :: pk) = out_commit (in_data inp) /\
      pk_parse (be_value pk) = true /\
      schnorr (be_value pk) (tx_id sha tx) (be_value sg) = true.
  Proof.
    intros T H Hi. apply check_tx_accepts in H; [|assumption].
    destruct (nth_error (tx_witness tx) i) as [w|] eqn:Ew.
    - destruct (v_auth _ _ _ _ H _ _ _ Hi Ew) as (pk & sg & -> & R).
      exists pk, sg. split; [reflexivity|exact R].
    - apply nth_error_None in Ew. rewrite (v_witness _ _ _ _ H) in Ew.
      apply nth_error_None in Ew. congruence.
  Qed.

  Lemma p2pk_spendable tx pk sg :
    pk < 2 ^ 256 -> sg < 2 ^ 512 -> pk_parse pk = true ->
    schnorr pk (tx_id sha tx) sg = true ->
    authorises sha pk_parse schnorr tx (get_p2pk_witness_commitment sha pk)
      (0 :: be_bytes 32 pk ++ be_bytes 64 sg).
  Proof.
    intros Hp Hs Hk Hv. exists (be_bytes 32 pk), (be_bytes 64 sg).
    rewrite !be_bytes_length, !be_value_bytes; [|exact Hs|exact Hp].
    repeat split; auto.
  Qed.
End S.
