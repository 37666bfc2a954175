(** Concrete clients. *)
From Coq Require Import NArith List Bool Lia.
From stdpp Require Import base decidable list gmap.
From Verif Require Import Base CodecModel TxModel TxExamples ValidationModel ValidationSpec WalletModel WalletSpec
  WalletExamples WatchtowerModel ClientModel ClientSpec.
Import ListNotations.
Open Scope N_scope.

(** Checking that calls are used as meant. *)
Definition spends_b (b : books) (tx : full_tx) : bool :=
  forallb (fun i =>
    (negb (bool_decide (in_prevout i ∈ outpoints (b_own b))) || bool_decide (i ∈ b_tied b)) &&
    forallb (fun j => negb (input_hash quick_sha i =? input_hash quick_sha j) || bool_decide (i = j)) (b_tied b))
    (tx_inputs tx).
Lemma spends_b_ok b tx : spends_b b tx = true -> spends_tied quick_sha b tx.
Proof.
  unfold spends_b, spends_tied. rewrite forallb_forall. intros H i Hi. specialize (H i Hi).
  apply andb_true_iff in H as [A B]. rewrite forallb_forall in B. split.
  - intros Ho. apply orb_true_iff in A as [A|A].
    + apply negb_true_iff, bool_decide_eq_false in A. contradiction.
    + apply bool_decide_eq_true in A. now apply elem_of_list_In.
  - intros j Hj E. specialize (B j Hj). apply orb_true_iff in B as [B|B].
    + apply negb_true_iff, N.eqb_neq in B. contradiction.
    + now apply bool_decide_eq_true in B.
Qed.
Definition again_b (b : books) (i : input) : bool :=
  negb (bool_decide (in_prevout i ∈ outpoints (b_tied b))) && negb (bool_decide (in_prevout i ∈ b_gone b)).
Lemma again_b_ok b i : again_b b i = true -> not_again b i.
Proof.
  unfold again_b, not_again. rewrite andb_true_iff, !negb_true_iff. intros [A B].
  apply bool_decide_eq_false in A, B. auto.
Qed.
Definition tx_b (tx : full_tx) : bool :=
  (len (tx_inputs tx) <? two64) && forallb coin_b (tx_inputs tx) &&
  (len (tx_outputs tx) <? two64) && forallb out_b (tx_outputs tx) &&
  (len (tx_witness tx) <? two64) &&
  forallb (fun w => (len w <? two64) && forallb (fun x => x <? 256 ^ 1) w) (tx_witness tx).
Lemma coin_b_ok i : coin_b i = true -> dom c_input i.
Proof.
  unfold coin_b, out_b. rewrite !andb_true_iff, !N.ltb_lt. intros [[A B] [C D]]. repeat split; assumption.
Qed.
Lemma tx_b_ok tx : tx_b tx = true -> dom c_full_tx tx.
Proof.
  unfold tx_b. rewrite !andb_true_iff, !N.ltb_lt, !forallb_forall. intros [[[[[A B] C] D] E] F].
  split; [split|]; cbn [fst snd]; (split; [assumption|]); apply Forall_forall; intros x Hx; apply elem_of_list_In in Hx.
  - apply coin_b_ok. auto.
  - specialize (D x Hx). unfold out_b in D. rewrite andb_true_iff, !N.ltb_lt in D. destruct D. split; assumption.
  - specialize (F x Hx). rewrite andb_true_iff, N.ltb_lt, forallb_forall in F. destruct F as [F1 F2]. split; [assumption|].
    apply Forall_forall. intros y Hy. apply elem_of_list_In in Hy. apply N.ltb_lt. auto.
Qed.
Definition map_b {V} (f : V -> bool) (m : gmap N V) : bool :=
  (len (map_to_list m) <? two64) && forallb (fun p => (fst p <? 256 ^ 32) && f (snd p)) (map_to_list m).
Lemma map_b_ok {V} (f : V -> bool) (cv : codec V) (m : gmap N V) : (forall v, f v = true -> dom cv v) ->
  map_b f m = true -> dom (c_map c_hash cv) (map_to_list m).
Proof.
  intros HF. unfold map_b. rewrite andb_true_iff, N.ltb_lt, forallb_forall. intros [A B].
  split; [exact A|]. split; [apply NoDup_fst_map_to_list|]. apply Forall_forall. intros p Hp. apply elem_of_list_In in Hp.
  specialize (B p Hp). apply andb_true_iff in B as [B1 B2]. apply N.ltb_lt in B1. split; [exact B1|auto].
Qed.
Definition typed_b (c : client) : bool :=
  file_b (cl_wallet c) && map_b tx_b (cl_txs c) && map_b coin_b (cl_inputs c) && map_b coin_b (cl_spend c).
Lemma typed_b_ok c : typed_b c = true -> client_typed c.
Proof.
  unfold typed_b. rewrite !andb_true_iff. intros [[[A B] C] D]. split; [now apply file_b_ok|].
  split; [split|]; cbn [fst snd]; eapply map_b_ok; eauto using tx_b_ok, coin_b_ok.
Qed.
Definition cmeant_b (c : client) (b : books) (k : ccall) : bool :=
  match k with
  | CKey _ | CMint _ _ | CImportTx _ | CImportInput _ => true
  | CCreate v _ _ => v <? 2 ^ 32
  | CFan n v _ _ => (n <? 2 ^ 32) && (v <? 2 ^ 32)
  | CConfirm id =>
      match b_sent b !! id with
      | None => true
      | Some tx => spends_b b tx && forallb (again_b b) (received quick_sha (cl_wallet c) tx) &&
                   forallb (fun i => negb (op_txid (in_prevout i) =? tx_id quick_sha tx)) (tx_inputs tx)
      end && match b_expected b !! id with None => true | Some i => again_b b i end
  | CAbandon id => match b_sent b !! id with None => true | Some tx => spends_b b tx end
  | CRestart => typed_b c
  end.
Lemma cmeant_b_ok c b k : cmeant_b c b k = true -> client_meant quick_sha c b k.
Proof.
  destruct k; cbn [cmeant_b client_meant]; rewrite ?andb_true_iff, ?N.ltb_lt; auto.
  - intros [A B]. split.
    + intros tx E. rewrite E in A. rewrite !andb_true_iff, !forallb_forall in A. destruct A as [[A1 A2] A3].
      split; [now apply spends_b_ok|]. split; [intros i Hi; now apply again_b_ok, A2|].
      intros i Hi. specialize (A3 i Hi). now apply negb_true_iff, N.eqb_neq in A3.
    + intros i E. rewrite E in B. now apply again_b_ok.
  - intros A tx E. rewrite E in A. now apply spends_b_ok.
  - apply typed_b_ok.
Qed.
Definition spent_b (txs : gmap N full_tx) (i : input) : bool :=
  existsb (fun p => bool_decide (i ∈ tx_inputs (snd p))) (map_to_list txs).
Lemma spent_b_ok txs i : spent_b txs i = true <-> spent_by_some txs i.
Proof.
  unfold spent_b, spent_by_some. rewrite existsb_exists. split.
  - intros ([id tx] & H & E). apply bool_decide_eq_true in E. exists id, tx. split; [|now apply elem_of_list_In].
    now apply elem_of_list_In, elem_of_map_to_list in H.
  - intros (id & tx & H & Hi). exists (id, tx). split; [now apply elem_of_list_In, elem_of_map_to_list|].
    apply bool_decide_eq_true. now apply elem_of_list_In.
Qed.
(** The books after a call, as a computation. *)
Definition books_next (c : client) (b : books) (k : ccall) (o : cout) : option books :=
  match k with
  | CKey _ | CRestart => Some b
  | CCreate _ _ _ | CFan _ _ _ _ =>
      match o with
      | CoTx (Built tx) => Some (Books (b_own b) (tx_inputs tx ++ b_tied b) (b_gone b) (b_sent b) (b_expected b))
      | _ => Some b
      end
  | CMint _ _ =>
      match o with
      | CoTx (Built tx) => Some (Books (b_own b) (b_tied b) (b_gone b) (first_kept (b_sent b) (tx_id quick_sha tx) tx) (b_expected b))
      | _ => None
      end
  | CImportTx tx => Some (Books (b_own b) (b_tied b) (b_gone b) (first_kept (b_sent b) (tx_id quick_sha tx) tx) (b_expected b))
  | CImportInput i =>
      Some (if is_ours (cl_wallet c) (out_commit (in_data i))
            then Books (b_own b) (b_tied b) (b_gone b) (b_sent b) (first_kept (b_expected b) (op_txid (in_prevout i)) i)
            else b)
  | CConfirm id => Some (settle_expected (settle_sent quick_sha (cl_wallet c) b id) id)
  | CAbandon id =>
      match b_sent b !! id with
      | None => Some b
      | Some tx =>
          let sent := delete id (b_sent b) in
          let tied := List.filter (fun i => negb (bool_decide (i ∈ tx_inputs tx)) || spent_b sent i) (b_tied b) in
          if bool_decide (base.NoDup tied) then Some (Books (b_own b) tied (b_gone b) sent (b_expected b)) else None
      end
  end.
Lemma books_next_ok c b k o b' : books_next c b k o = Some b' -> entered quick_sha c b k o b'.
Proof.
  destruct k; cbn [books_next entered]; intros H; try (injection H as <-; reflexivity).
  - destruct o as [[tx| | |]| | | |]; try discriminate. injection H as <-. reflexivity.
  - destruct o as [[tx| | |]| | | |]; injection H as <-; reflexivity.
  - destruct o as [[tx| | |]| | | |]; injection H as <-; reflexivity.
  - destruct (b_sent b !! id) as [tx|]; [|injection H as <-; reflexivity].
    destruct (bool_decide _) eqn:ND; [|discriminate]. apply bool_decide_eq_true in ND. injection H as <-. cbn.
    do 4 (split; [reflexivity|]). split; [exact ND|]. intros i. rewrite filter_In, orb_true_iff, negb_true_iff, bool_decide_eq_false, spent_b_ok.
    rewrite elem_of_list_In. destruct (decide (i ∈ tx_inputs tx)) as [D|D]; rewrite elem_of_list_In in D; tauto.
Qed.
Definition bounded_b (b : books) : bool :=
  (worth (b_own b) <? 2 ^ 64) && bool_decide (base.NoDup (map (input_hash quick_sha) (b_own b))).
Lemma bounded_b_ok b : bounded_b b = true -> bounded quick_sha b.
Proof. unfold bounded_b, bounded. rewrite andb_true_iff, N.ltb_lt. intros [A B]. now apply bool_decide_eq_true in B. Qed.

(** A history as a computation. *)
Definition toy_step := c_step quick_sha toy_pub toy_ssign.
Fixpoint chistory_b (c : client) (b : books) (ks : list ccall) : option (client * books) :=
  match ks with
  | [] => Some (c, b)
  | k :: r =>
      if cmeant_b c b k then
        let '(c1, o) := toy_step c k in
        match books_next c b k o with
        | Some b1 => if bounded_b b1 then chistory_b c1 b1 r else None
        | None => None
        end
      else None
  end.
Lemma chistory_b_ok ks : forall c b c' b', chistory_b c b ks = Some (c', b') ->
  client_history quick_sha toy_pub toy_ssign c b ks c' b'.
Proof.
  induction ks as [|k r IH]; intros c b c' b' H; cbn [chistory_b] in H.
  - injection H as <- <-. constructor.
  - destruct (cmeant_b c b k) eqn:M; [|discriminate]. destruct (toy_step c k) as [c1 o] eqn:S.
    destruct (books_next c b k o) as [b1|] eqn:E; [|discriminate]. destruct (bounded_b b1) eqn:B; [|discriminate].
    econstructor; [now apply cmeant_b_ok|exact S|eapply books_next_ok, E|now apply bounded_b_ok|now apply IH].
Qed.

(** The transaction made by the last call. *)
Definition made_by (ks : list ccall) : full_tx :=
  match rev (snd (c_run quick_sha toy_pub toy_ssign cl_new ks)) with
  | CoTx (Built tx) :: _ => tx
  | _ => FullTx [] [] []
  end.
Definition toy_id (tx : full_tx) : N := tx_id quick_sha tx.

(** Three minted coins of 10. 15 are sent to a stranger, with 5 change. *)
Definition day1 : list ccall := [CMint [11; 12; 13] 10].
Definition tx_day1 : full_tx := Eval vm_compute in made_by day1.
Definition day2 : list ccall := day1 ++ [CConfirm (toy_id tx_day1)].
Definition day3 : list ccall := day2 ++ [CCreate 15 99 21].
Definition tx_day3 : full_tx := Eval vm_compute in made_by day3.
Definition day4 : list ccall := day3 ++ [CImportTx tx_day3].
Definition day5 : list ccall := day4 ++ [CConfirm (toy_id tx_day3); CRestart].
(** 12 are sent, then the payment is abandoned. *)
Definition day6 : list ccall := day5 ++ [CCreate 12 99 22].
Definition tx_day6 : full_tx := Eval vm_compute in made_by day6.
Definition day7 : list ccall := day6 ++ [CImportTx tx_day6].
Definition day8 : list ccall := day7 ++ [CAbandon (toy_id tx_day6)].
(** Someone pays 4 and 6 to an address of this client in one transaction. *)
Definition gift : full_tx := FullTx [Input (OutPoint 77 0) (Output (addr 98) 10)] [Output (addr 12) 4; Output (addr 12) 6] [].
Definition gift0 : input := Input (OutPoint (toy_id gift) 0) (Output (addr 12) 4).
Definition gift1 : input := Input (OutPoint (toy_id gift) 1) (Output (addr 12) 6).
Definition day9 : list ccall := day8 ++ [CImportInput gift0].
Definition day10 : list ccall := day9 ++ [CConfirm (toy_id gift)].

Definition day_ok (ks : list ccall) (bal own tied : N) : bool :=
  match chistory_b cl_new b_new ks with
  | Some (c, b) => (cl_balance c =? bal) && (worth (b_own b) =? own) && (len (b_tied b) =? tied)
  | None => false
  end.
Lemma day_ok_after ks bal own tied : day_ok ks bal own tied = true ->
  exists c b, client_after quick_sha toy_pub toy_ssign ks c b /\
    cl_balance c = bal /\ worth (b_own b) = own /\ len (b_tied b) = tied.
Proof.
  unfold day_ok. destruct (chistory_b cl_new b_new ks) as [[c b]|] eqn:H; [|discriminate].
  rewrite !andb_true_iff, !N.eqb_eq. intros [[A B] C]. exists c, b. split; [now apply chistory_b_ok|]. auto.
Qed.
Lemma days_ok :
  day_ok day2 30 30 0 = true /\ day_ok day3 10 30 2 = true /\ day_ok day5 15 15 0 = true /\
  day_ok day7 0 15 2 = true /\ day_ok day8 15 15 0 = true /\ day_ok day10 19 19 0 = true.
Proof. repeat match goal with |- _ /\ _ => split end; vm_compute; reflexivity. Qed.

(** The state a list of calls leads to. *)
Definition client_at (ks : list ccall) : client := fst (c_run quick_sha toy_pub toy_ssign cl_new ks).
Definition reached (ks : list ccall) : bool :=
  match chistory_b cl_new b_new ks with Some _ => true | None => false end.
Lemma run_history c b ks c' b' : client_history quick_sha toy_pub toy_ssign c b ks c' b' ->
  fst (c_run quick_sha toy_pub toy_ssign c ks) = c'.
Proof.
  induction 1 as [|c b k c1 o b1 ks c2 b2 M S E B H IH]; [reflexivity|]. cbn [c_run]. rewrite S.
  destruct (c_run quick_sha toy_pub toy_ssign c1 ks) as [c3 os]. exact IH.
Qed.
Lemma reached_ok ks : reached ks = true -> exists b, client_after quick_sha toy_pub toy_ssign ks (client_at ks) b.
Proof.
  unfold reached. destruct (chistory_b cl_new b_new ks) as [[c b]|] eqn:H; [|discriminate]. intros _.
  apply chistory_b_ok in H. exists b. unfold client_at. now rewrite (run_history _ _ _ _ _ H).
Qed.

(** The hypotheses of C56_confirm and C56_abandon. *)
Definition confirm_hyps (ks : list ccall) (id : N) : bool :=
  match chistory_b cl_new b_new ks with
  | Some (c, b) =>
      cmeant_b c b (CConfirm id) &&
      match books_next c b (CConfirm id) (snd (toy_step c (CConfirm id))), b_sent b !! id, b_expected b !! id with
      | Some b', Some tx, None => bounded_b b' && bool_decide (base.NoDup (outpoints (received quick_sha (cl_wallet c) tx ++ b_own b)))
                                  && negb (len (received quick_sha (cl_wallet c) tx) =? 0)
      | _, _, _ => false
      end
  | None => false
  end.
Lemma confirm_hyps_ok ks id : confirm_hyps ks id = true ->
  exists c b tx c' o b', client_after quick_sha toy_pub toy_ssign ks c b /\
    client_meant quick_sha c b (CConfirm id) /\ toy_step c (CConfirm id) = (c', o) /\
    entered quick_sha c b (CConfirm id) o b' /\ bounded quick_sha b' /\
    b_sent b !! id = Some tx /\ b_expected b !! id = None /\
    base.NoDup (outpoints (received quick_sha (cl_wallet c) tx ++ b_own b)) /\
    received quick_sha (cl_wallet c) tx <> [].
Proof.
  unfold confirm_hyps. destruct (chistory_b cl_new b_new ks) as [[c b]|] eqn:H; [|discriminate].
  rewrite andb_true_iff. intros [M G].
  destruct (books_next c b (CConfirm id) (snd (toy_step c (CConfirm id)))) as [b'|] eqn:E; [|discriminate].
  destruct (b_sent b !! id) as [tx|] eqn:L; [|discriminate]. destruct (b_expected b !! id) eqn:X; [discriminate|].
  rewrite !andb_true_iff in G. destruct G as [[B ND] P]. apply bool_decide_eq_true in ND.
  exists c, b, tx, (fst (toy_step c (CConfirm id))), (snd (toy_step c (CConfirm id))), b'.
  split; [now apply chistory_b_ok|]. split; [now apply cmeant_b_ok|]. split; [now destruct (toy_step c (CConfirm id))|].
  split; [now apply books_next_ok|]. split; [now apply bounded_b_ok|]. split; [exact L|]. split; [exact X|].
  split; [exact ND|]. intros Z. rewrite Z in P. discriminate P.
Qed.
Definition abandon_hyps (ks : list ccall) (id : N) : bool :=
  match chistory_b cl_new b_new ks with
  | Some (c, b) =>
      cmeant_b c b (CAbandon id) &&
      match books_next c b (CAbandon id) (snd (toy_step c (CAbandon id))), b_sent b !! id with
      | Some b', Some tx => bool_decide (base.NoDup (tx_inputs tx)) && negb (len (tx_inputs tx) =? 0) &&
          forallb (fun i => bool_decide (i ∈ b_tied b) && negb (spent_b (delete id (b_sent b)) i)) (tx_inputs tx)
      | _, _ => false
      end
  | None => false
  end.
Lemma abandon_hyps_ok ks id : abandon_hyps ks id = true ->
  exists c b tx c' o b', client_after quick_sha toy_pub toy_ssign ks c b /\
    client_meant quick_sha c b (CAbandon id) /\ toy_step c (CAbandon id) = (c', o) /\
    entered quick_sha c b (CAbandon id) o b' /\
    b_sent b !! id = Some tx /\ base.NoDup (tx_inputs tx) /\ tx_inputs tx <> [] /\
    (forall i, In i (tx_inputs tx) -> In i (b_tied b) /\ ~ spent_by_some (delete id (b_sent b)) i).
Proof.
  unfold abandon_hyps. destruct (chistory_b cl_new b_new ks) as [[c b]|] eqn:H; [|discriminate].
  rewrite andb_true_iff. intros [M G].
  destruct (books_next c b (CAbandon id) (snd (toy_step c (CAbandon id)))) as [b'|] eqn:E; [|discriminate].
  destruct (b_sent b !! id) as [tx|] eqn:L; [|discriminate].
  rewrite !andb_true_iff, forallb_forall in G. destruct G as [[ND P] F]. apply bool_decide_eq_true in ND.
  exists c, b, tx, (fst (toy_step c (CAbandon id))), (snd (toy_step c (CAbandon id))), b'.
  split; [now apply chistory_b_ok|]. split; [now apply cmeant_b_ok|]. split; [now destruct (toy_step c (CAbandon id))|].
  split; [now apply books_next_ok|]. split; [exact L|]. split; [exact ND|].
  split; [intros Z; rewrite Z in P; discriminate P|].
  intros i Hi. specialize (F i Hi). apply andb_true_iff in F as [F1 F2]. apply bool_decide_eq_true, elem_of_list_In in F1.
  split; [exact F1|]. intros Z. apply spent_b_ok in Z. rewrite Z in F2. discriminate F2.
Qed.
Lemma confirm_hyps_day4 : confirm_hyps day4 (toy_id tx_day3) = true.
Proof. vm_compute. reflexivity. Qed.
Lemma abandon_hyps_day7 : abandon_hyps day7 (toy_id tx_day6) = true.
Proof. vm_compute. reflexivity. Qed.

(** Two coins of one transaction are announced; only one arrives. *)
Lemma two_coins_case : exists ks c b i j,
  client_after quick_sha toy_pub toy_ssign ks c b /\
  is_ours (cl_wallet c) (out_commit (in_data i)) = true /\
  is_ours (cl_wallet c) (out_commit (in_data j)) = true /\
  i <> j /\ op_txid (in_prevout i) = op_txid (in_prevout j) /\
  not_again b i /\ not_again b j /\
  cl_balance (fst (c_run quick_sha toy_pub toy_ssign c [CImportInput i; CImportInput j; CConfirm (op_txid (in_prevout i))]))
  < cl_balance c + worth [i; j].
Proof.
  assert (G : match chistory_b cl_new b_new day8 with
    | Some (c, b) =>
        is_ours (cl_wallet c) (out_commit (in_data gift0)) && is_ours (cl_wallet c) (out_commit (in_data gift1)) &&
        again_b b gift0 && again_b b gift1 &&
        (cl_balance (fst (c_run quick_sha toy_pub toy_ssign c [CImportInput gift0; CImportInput gift1; CConfirm (op_txid (in_prevout gift0))]))
          <? cl_balance c + worth [gift0; gift1])
    | None => false end = true) by (vm_compute; reflexivity).
  destruct (chistory_b cl_new b_new day8) as [[c b]|] eqn:H; [|discriminate G]. rewrite !andb_true_iff, N.ltb_lt in G. destruct G as [[[[A B] C] D] E].
  exists day8, c, b, gift0, gift1. split; [now apply chistory_b_ok|]. split; [exact A|]. split; [exact B|].
  split; [intros X; now apply (f_equal (fun x => op_index (in_prevout x))) in X|]. split; [reflexivity|]. split; [now apply again_b_ok|]. split; [now apply again_b_ok|exact E].
Qed.

(** A payment is made and never sent: its coins stay out of the balance. *)
Lemma stuck_case : exists ks c b i,
  client_after quick_sha toy_pub toy_ssign ks c b /\ In i (b_tied b) /\
  (forall id tx, b_sent b !! id = Some tx -> in_prevout i ∉ outpoints (tx_inputs tx)).
Proof.
  assert (G : match chistory_b cl_new b_new day3 with
    | Some (c, b) => match tx_inputs tx_day3 with
                     | i :: _ => bool_decide (i ∈ b_tied b) && (N.of_nat (length (map_to_list (b_sent b))) =? 0)
                     | [] => false
                     end
    | None => false end = true) by (vm_compute; reflexivity).
  destruct (chistory_b cl_new b_new day3) as [[c b]|] eqn:H; [|discriminate G]. destruct (tx_inputs tx_day3) as [|i r]; [discriminate G|]. apply andb_true_iff in G as [A B].
  apply bool_decide_eq_true, elem_of_list_In in A. apply N.eqb_eq in B.
  exists day3, c, b, i. split; [now apply chistory_b_ok|]. split; [exact A|]. intros id tx L.
  apply elem_of_map_to_list in L. destruct (map_to_list (b_sent b)); [now apply elem_of_nil in L|cbn in B; lia].
Qed.

(** Crashes while saving. *)
Definition same_view_b (c d : client) : bool :=
  (cl_balance c =? cl_balance d) && (pending_tx_count c =? pending_tx_count d).
Definition worth_of (c : client) : N :=
  cl_balance c + worth (map snd (map_to_list (cl_spend c))).
Lemma crash_confirm_case : exists ks c b id c' c'',
  client_after quick_sha toy_pub toy_ssign ks c b /\
  c_step quick_sha toy_pub toy_ssign c (CConfirm id) = (c', CoBool true) /\
  open_client quick_sha (crash_files (save_all c) c' CrBetween) = Some c'' /\
  cl_balance c'' < cl_balance c' /\
  c_step quick_sha toy_pub toy_ssign c'' (CConfirm id) = (c'', CoBool false).
Proof.
  assert (R : reached day4 = true) by (vm_compute; reflexivity). destruct (reached_ok _ R) as [b A].
  destruct (c_step quick_sha toy_pub toy_ssign (client_at day4) (CConfirm (toy_id tx_day3))) as [c' o] eqn:S.
  assert (G : let '(c', o) := c_step quick_sha toy_pub toy_ssign (client_at day4) (CConfirm (toy_id tx_day3)) in
    match o, open_client quick_sha (crash_files (save_all (client_at day4)) c' CrBetween) with
    | CoBool true, Some c'' =>
       (cl_balance c'' <? cl_balance c') &&
       match cl_txs c'' !! toy_id tx_day3, cl_inputs c'' !! toy_id tx_day3 with None, None => true | _, _ => false end
    | _, _ => false end = true) by (vm_compute; reflexivity).
  rewrite S in G. destruct o as [| |[]| |]; [discriminate G|discriminate G| |discriminate G|discriminate G|discriminate G].
  destruct (open_client _ _) as [c''|] eqn:O; [|discriminate G]. apply andb_true_iff in G as [G1 G2].
  apply N.ltb_lt in G1.
  exists day4, (client_at day4), b, (toy_id tx_day3), c', c''.
  split; [exact A|]. split; [exact S|]. split; [exact O|]. split; [exact G1|].
  destruct (cl_txs c'' !! toy_id tx_day3) eqn:L1; [discriminate G2|]. destruct (cl_inputs c'' !! toy_id tx_day3) eqn:L2; [discriminate G2|].
  cbn [c_step]. unfold confirm_tx, confirm_sent. rewrite L1. unfold confirm_expected. rewrite L2. reflexivity.
Qed.
Lemma crash_abandon_case : exists ks c b id tx c' c'',
  client_after quick_sha toy_pub toy_ssign ks c b /\ b_sent b !! id = Some tx /\ 0 < worth (tx_inputs tx) /\
  c_step quick_sha toy_pub toy_ssign c (CAbandon id) = (c', CoBool true) /\
  open_client quick_sha (crash_files (save_all c) c' CrBetween) = Some c'' /\
  cl_balance c'' + worth (tx_inputs tx) = cl_balance c' /\
  c_step quick_sha toy_pub toy_ssign c'' (CAbandon id) = (c'', CoBool false).
Proof.
  assert (G : match chistory_b cl_new b_new day7 with
    | Some (c, b) =>
      let '(c', o) := c_step quick_sha toy_pub toy_ssign c (CAbandon (toy_id tx_day6)) in
      match o, open_client quick_sha (crash_files (save_all c) c' CrBetween), b_sent b !! toy_id tx_day6 with
      | CoBool true, Some c'', Some tx =>
         (0 <? worth (tx_inputs tx)) &&
         (cl_balance c'' + worth (tx_inputs tx) =? cl_balance c') &&
         match cl_txs c'' !! toy_id tx_day6 with None => true | _ => false end
      | _, _, _ => false end
    | None => false end = true) by (vm_compute; reflexivity).
  destruct (chistory_b cl_new b_new day7) as [[c b]|] eqn:H; [|discriminate G].
  destruct (c_step quick_sha toy_pub toy_ssign c (CAbandon (toy_id tx_day6))) as [c' o] eqn:S. destruct o as [| |[]| |]; [discriminate G|discriminate G| |discriminate G|discriminate G|discriminate G].
  destruct (open_client _ _) as [c''|] eqn:O; [|discriminate G].
  destruct (b_sent b !! toy_id tx_day6) as [tx|] eqn:L; [|discriminate G].
  rewrite !andb_true_iff in G. destruct G as [[G0 G1] G2].
  apply N.ltb_lt in G0. apply N.eqb_eq in G1.
  exists day7, c, b, (toy_id tx_day6), tx, c', c''.
  split; [now apply chistory_b_ok|]. split; [exact L|]. split; [exact G0|]. split; [exact S|]. split; [exact O|]. split; [exact G1|].
  destruct (cl_txs c'' !! toy_id tx_day6) eqn:L1; [discriminate G2|].
  cbn [c_step]. unfold abandon_transaction. rewrite L1. reflexivity.
Qed.
(** The wallet file cut short: the client opens without its coins, and without a key. *)
Definition lost_key (c c' : client) : option (N * N) :=
  List.find (fun p => match w_keys (cl_wallet c') !! (fst p : N) with None => true | _ => false end)
            (map_to_list (w_keys (cl_wallet c))).
Definition cut_b (c : client) (n : nat) : bool :=
  match open_client quick_sha (crash_files (save_all c) c (CrWallet n)) with
  | Some c' => (cl_balance c' =? 0) && (0 <? cl_balance c) && Nat.ltb n (length (save (cl_wallet c)))
               && match lost_key c c' with Some _ => true | None => false end
  | None => false
  end.
Lemma cut_b_ok c n : cut_b c n = true -> exists c'' pk sk,
  (n < length (save (cl_wallet c)))%nat /\ 0 < cl_balance c /\ w_keys (cl_wallet c) !! pk = Some sk /\
  open_client quick_sha (crash_files (save_all c) c (CrWallet n)) = Some c'' /\
  cl_balance c'' = 0 /\ w_keys (cl_wallet c'') !! pk = None.
Proof.
  unfold cut_b. destruct (open_client _ _) as [c''|] eqn:O; [|discriminate].
  rewrite !andb_true_iff, N.eqb_eq, N.ltb_lt, Nat.ltb_lt. intros [[[G1 G2] G3] G4].
  destruct (lost_key c c'') as [[pk sk]|] eqn:F; [|discriminate]. unfold lost_key in F.
  apply find_some in F as [F1 F2]. cbn [fst] in F2. apply elem_of_list_In, elem_of_map_to_list in F1.
  exists c'', pk, sk. repeat (split; [assumption || reflexivity|]).
  destruct (w_keys (cl_wallet c'') !! pk); [discriminate|reflexivity].
Qed.
Lemma crash_wallet_case : exists ks c b n c'' pk sk,
  client_after quick_sha toy_pub toy_ssign ks c b /\
  (n < length (save (cl_wallet c)))%nat /\ 0 < cl_balance c /\ w_keys (cl_wallet c) !! pk = Some sk /\
  open_client quick_sha (crash_files (save_all c) c (CrWallet n)) = Some c'' /\
  cl_balance c'' = 0 /\ w_keys (cl_wallet c'') !! pk = None.
Proof.
  assert (R : reached day2 = true) by (vm_compute; reflexivity). destruct (reached_ok _ R) as [b A].
  assert (G : cut_b (client_at day2) 100 = true) by (vm_compute; reflexivity).
  destruct (cut_b_ok _ _ G) as (c'' & pk & sk & H). exists day2, (client_at day2), b, 100%nat, c'', pk, sk.
  split; [exact A|exact H].
Qed.

(** The two-phase commit client asks only for the transaction of an announced coin. *)
Definition says_yes (id x : N) : option bool := Some (x =? id).
Definition forged0 : input := Input (OutPoint (toy_id gift) 0) (Output (addr 12) 1000000).
Lemma forged_case : exists ks c b tx i,
  client_after quick_sha toy_pub toy_ssign ks c b /\
  op_txid (in_prevout i) = tx_id quick_sha tx /\
  ~ In (in_data i) (tx_outputs tx) /\
  total (out_values tx) < coin_value i /\
  cl_balance (fst (twophase_sync quick_sha toy_pub toy_ssign (says_yes (tx_id quick_sha tx))
                     (fst (c_step quick_sha toy_pub toy_ssign c (CImportInput i)))))
  = cl_balance c + coin_value i.
Proof.
  assert (R : reached day8 = true) by (vm_compute; reflexivity). destruct (reached_ok _ R) as [b A].
  exists day8, (client_at day8), b, gift, forged0. split; [exact A|]. split; [unfold forged0, toy_id; cbn [in_prevout op_txid]; reflexivity|]. split.
  - unfold gift, forged0; cbn [tx_outputs in_data]. intros [X|[X|[]]]; apply (f_equal out_value) in X; cbn [out_value] in X; discriminate X.
  - split; [vm_compute; reflexivity|]. vm_compute. reflexivity.
Qed.
(** A coin that was spent before is announced again. *)
Lemma replayed_case : exists ks c b i,
  client_after quick_sha toy_pub toy_ssign ks c b /\
  in_prevout i ∈ b_gone b /\ cl_txs c = ∅ /\ cl_spend c = ∅ /\
  cl_balance c = worth (b_own b) /\
  cl_balance (fst (twophase_sync quick_sha toy_pub toy_ssign (says_yes (op_txid (in_prevout i)))
                     (fst (c_step quick_sha toy_pub toy_ssign c (CImportInput i)))))
  = cl_balance c + coin_value i /\ 0 < coin_value i.
Proof.
  assert (G : match chistory_b cl_new b_new day5 with
    | Some (c, b) => match tx_inputs tx_day3 with
        | i :: _ => bool_decide (in_prevout i ∈ b_gone b) && (len (map_to_list (cl_txs c)) =? 0) && (len (map_to_list (cl_spend c)) =? 0) &&
           (cl_balance c =? worth (b_own b)) &&
           (cl_balance (fst (twophase_sync quick_sha toy_pub toy_ssign (says_yes (op_txid (in_prevout i)))
                     (fst (c_step quick_sha toy_pub toy_ssign c (CImportInput i))))) =? cl_balance c + coin_value i) && (0 <? coin_value i)
        | [] => false end
    | None => false end = true) by (vm_compute; reflexivity).
  destruct (chistory_b cl_new b_new day5) as [[c b]|] eqn:H; [|discriminate G].
  destruct (tx_inputs tx_day3) as [|i r]; [discriminate G|].
  rewrite !andb_true_iff, !N.eqb_eq, N.ltb_lt in G. destruct G as [[[[[G1 G2] G3] G4] G5] G6].
  apply bool_decide_eq_true in G1.
  exists day5, c, b, i. split; [now apply chistory_b_ok|]. split; [exact G1|].
  split; [|split; [|split; [exact G4|split; [exact G5|exact G6]]]]; apply map_to_list_empty_iff, length_zero_iff_nil; unfold len in *; lia.
Qed.

(** The reply of the watchtower names one transaction that is in no block and one that is. *)
Definition day_two_pays : list ccall := day2 ++ [CCreate 10 99 31].
Definition tx_pay1 : full_tx := Eval vm_compute in made_by day_two_pays.
Definition day_two_pays2 : list ccall := day_two_pays ++ [CImportTx tx_pay1; CCreate 10 98 32].
Definition tx_pay2 : full_tx := Eval vm_compute in made_by day_two_pays2.
Definition day_paid : list ccall := day_two_pays2 ++ [CImportTx tx_pay2].
Definition unknown_then_known : list (N * list status_state) :=
  [(toy_id tx_pay1, [Status SNoHistory 9 1]); (toy_id tx_pay2, [Status SSpent 8 1; Status SUnspent 8 2])].
Lemma skipped_case : exists ks c b es id ss c' ok,
  client_after quick_sha toy_pub toy_ssign ks c b /\
  In (id, ss) es /\ Forall (fun s => su_status s = SSpent \/ su_status s = SUnspent) ss /\ ss <> [] /\
  cl_txs c !! id <> None /\
  atomizer_sync quick_sha (Some es) c = Some (c', ok) /\ cl_txs c' !! id <> None /\
  (exists c'' ok', atomizer_sync quick_sha (Some (rev es)) c = Some (c'', ok') /\ cl_txs c'' !! id = None).
Proof.
  assert (R : reached day_paid = true) by (vm_compute; reflexivity). destruct (reached_ok _ R) as [b A].
  set (c := client_at day_paid) in *.
  set (r1 := fold_left (sync_reply quick_sha) unknown_then_known (c, true)).
  set (r2 := fold_left (sync_reply quick_sha) (rev unknown_then_known) (c, true)).
  assert (G1 : match cl_txs c !! toy_id tx_pay2 with Some _ => true | None => false end = true) by (vm_compute; reflexivity).
  assert (G2 : match cl_txs (fst r1) !! toy_id tx_pay2 with Some _ => true | None => false end = true) by (vm_compute; reflexivity).
  assert (G3 : match cl_txs (fst r2) !! toy_id tx_pay2 with Some _ => false | None => true end = true) by (vm_compute; reflexivity).
  exists day_paid, c, b, unknown_then_known, (toy_id tx_pay2), [Status SSpent 8 1; Status SUnspent 8 2], (fst r1), (snd r1).
  split; [exact A|]. split; [right; left; reflexivity|].
  split; [constructor; [left; reflexivity|constructor; [right; reflexivity|constructor]]|]. split; [discriminate|].
  split; [intros X; rewrite X in G1; discriminate G1|].
  split; [unfold atomizer_sync; fold r1; now destruct r1 as [? ?]|].
  split; [intros X; rewrite X in G2; discriminate G2|].
  exists (fst r2), (snd r2). split; [unfold atomizer_sync; fold r2; now destruct r2|].
  destruct (cl_txs (fst r2) !! toy_id tx_pay2); [discriminate G3|reflexivity].
Qed.
