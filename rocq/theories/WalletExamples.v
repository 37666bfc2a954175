(** Concrete wallets. *)
From Coq Require Import NArith List Bool Lia.
From stdpp Require Import base decidable list gmap.
From Verif Require Import Base CodecModel TxModel TxExamples ValidationModel ValidationSpec WalletModel WalletSpec.
Import ListNotations.
Open Scope N_scope.

(** Quick to compute. *)
Definition quick_sha (b : bytes) : hash := fold_left (fun h x => N.land (h * 257 + x + 1) (2 ^ 64 - 1)) b 0.
Definition addr (pk : N) : hash := get_p2pk_witness_commitment quick_sha pk.
Definition toy_pub (sk : N) : N := sk mod 2 ^ 256.
Definition toy_ssign (sk : N) (m : hash) : N := (sk mod 2 ^ 256 + m) mod 2 ^ 512.
Lemma toy_keys_sound : keys_sound toy_pub toy_ssign (fun _ => true) toy_schnorr.
Proof.
  intros sk m. unfold toy_pub, toy_ssign, toy_schnorr.
  split; [apply N.mod_lt; discriminate|]. split; [apply N.mod_lt; discriminate|].
  split; [reflexivity|]. apply N.eqb_refl.
Qed.

(** Checking that calls are used as meant. *)
Definition outs_b (l gone : list input) : bool :=
  forallb (fun i => negb (bool_decide (in_prevout i ∈ outpoints gone))) l.
Lemma outs_b_ok l gone : outs_b l gone = true -> forall i, In i l -> in_prevout i ∉ outpoints gone.
Proof.
  unfold outs_b. rewrite forallb_forall. intros H i Hi. specialize (H i Hi).
  apply negb_true_iff, bool_decide_eq_false in H. exact H.
Qed.
Definition seeds_b (w : wallet) (held : list input) (c : hash) (v f t : N) : bool :=
  (f <=? t) && (t <? 2 ^ 64) && (w_from w =? w_to w) &&
  bool_decide (base.NoDup (outpoints (seed_coins quick_sha c v f t ++ held))).
Lemma seeds_b_ok w held c v f t : seeds_b w held c v f t = true -> seeds_fresh quick_sha w held c v f t.
Proof.
  unfold seeds_b, seeds_fresh. rewrite !andb_true_iff, N.leb_le, N.ltb_lt, N.eqb_eq.
  intros [[[H1 H2] H3] H4]. apply bool_decide_eq_true in H4. auto.
Qed.
Definition out_b (o : output) : bool := (out_commit o <? 256 ^ 32) && (out_value o <? 256 ^ 8).
Definition coin_b (i : input) : bool :=
  (op_txid (in_prevout i) <? 256 ^ 32) && (op_index (in_prevout i) <? 256 ^ 8) && out_b (in_data i).
Definition file_b (w : wallet) : bool :=
  (len (map_to_list (w_keys w)) <? two64) &&
  forallb (fun p => (fst p <? 256 ^ 32) && (snd p <? 256 ^ 32)) (map_to_list (w_keys w)) &&
  (len (w_utxos w) <? two64) && bool_decide (base.NoDup (w_utxos w)) && forallb coin_b (w_utxos w).
Lemma file_b_ok w : file_b w = true -> file_typed w.
Proof.
  unfold file_b. rewrite !andb_true_iff, !forallb_forall. intros [[[[H1 H2] H3] H4] H5].
  unfold file_typed, c_wallet_file. cbn [dom c_pair fst snd]. split.
  - cbn [dom c_map]. split; [now apply N.ltb_lt|]. split; [apply NoDup_fst_map_to_list|].
    apply Forall_forall. intros p Hp. apply elem_of_list_In in Hp. apply H2 in Hp. apply andb_true_iff in Hp as [A B].
    split; apply N.ltb_lt; assumption.
  - cbn [dom c_oset]. split; [now apply N.ltb_lt|]. split; [apply bool_decide_eq_true in H4; exact H4|].
    apply Forall_forall. intros p Hp. apply elem_of_list_In in Hp. apply H5 in Hp.
    unfold coin_b, out_b in Hp. rewrite !andb_true_iff, !N.ltb_lt in Hp. destruct Hp as [[A B] [C D]].
    repeat split; assumption.
Qed.
Definition meant_b (w : wallet) (held : list input) (c : wcall) : bool :=
  match c with
  | WKey _ | WMint _ _ => true
  | WSend a _ _ _ => a <? 2 ^ 32
  | WSendN i o _ _ => (0 <? i) && (i <? 2 ^ 64) && (0 <? o) && (o <? 2 ^ 64) && (len held <? 2 ^ 64)
  | WFan n v _ _ _ => n * v <? 2 ^ 64
  | WConfirmTx tx =>
      outs_b (tx_inputs tx) (fold_left credit (received quick_sha w tx) held) &&
      outs_b (received quick_sha w tx) (unused_seeds quick_sha w)
  | WConfirmInputs l => outs_b l (unused_seeds quick_sha w)
  | WSeed sk v f t => seeds_b w held (get_p2pk_witness_commitment quick_sha (toy_pub sk)) v f t
  | WSeedReadonly c v f t => seeds_b w held c v f t
  | WRestart => (w_from w =? w_to w) && file_b w
  end.
Lemma meant_b_ok w held c : meant_b w held c = true -> meant quick_sha toy_pub w held c.
Proof.
  destruct c; cbn [meant_b meant]; rewrite ?andb_true_iff, ?N.ltb_lt, ?N.eqb_eq.
  - auto.
  - auto.
  - auto.
  - tauto.
  - auto.
  - intros [A B]. split; apply outs_b_ok; auto.
  - apply outs_b_ok.
  - intros. now apply seeds_b_ok.
  - apply seeds_b_ok.
  - intros [A B]. split; [auto|]. now apply file_b_ok.
Qed.

(** A history as a computation; it stops at a call that is not meant. *)
Fixpoint history_b (w : wallet) (held : list input) (cs : list wcall) : option (wallet * list input) :=
  match cs with
  | [] => Some (w, held)
  | c :: r =>
      if meant_b w held c then
        let '(w1, o) := w_step quick_sha toy_pub toy_ssign w c in
        let held1 := held_after quick_sha toy_pub w held c o in
        if worth held1 <? 2 ^ 64 then history_b w1 held1 r else None
      else None
  end.
Lemma history_b_ok cs : forall w held w' held', history_b w held cs = Some (w', held') ->
  history quick_sha toy_pub toy_ssign w held cs w' held'.
Proof.
  induction cs as [|c r IH]; intros w held w' held' H; cbn [history_b] in H.
  - injection H as <- <-. constructor.
  - destruct (meant_b w held c) eqn:M; [|discriminate].
    destruct (w_step quick_sha toy_pub toy_ssign w c) as [w1 o] eqn:S.
    destruct (worth _ <? 2 ^ 64) eqn:W; [|discriminate].
    econstructor; [now apply meant_b_ok|exact S|now apply N.ltb_lt|]. now apply IH.
Qed.

(** The transaction built by the [n]-th call of a history. *)
Definition built_by (cs : list wcall) : full_tx :=
  match rev (snd (w_run quick_sha toy_pub toy_ssign w_empty cs)) with
  | OTx (Built tx) :: _ => tx
  | _ => FullTx [] [] []
  end.

(** A life: three minted coins of 10; 15 sent to a stranger with 5 change; the coins fanned
    out; a restart; a split into three outputs. *)
Definition life1 : list wcall := [WMint [11; 12; 13] 10].
Definition tx_life1 : full_tx := Eval vm_compute in built_by life1.
Definition life2 : list wcall := life1 ++ [WConfirmTx tx_life1].
Definition life3 : list wcall := life2 ++ [WSend 15 99 true 21].
Definition tx_life3 : full_tx := Eval vm_compute in built_by life3.
Definition life4 : list wcall := life3 ++ [WConfirmTx tx_life3; WRestart].
Definition life5 : list wcall := life4 ++ [WFan 3 2 12 true 22].
Definition tx_life5 : full_tx := Eval vm_compute in built_by life5.
Definition life6 : list wcall := life5 ++ [WConfirmTx tx_life5].
Definition life7 : list wcall := life6 ++ [WSendN 3 2 99 true].
Definition tx_life7 : full_tx := Eval vm_compute in built_by life7.
(** A life from a seed range. *)
Definition seeded1 : list wcall := [WSeed 5 7 0 4].
Definition seeded2 : list wcall := seeded1 ++ [WSend 10 99 true 31].
Definition tx_seeded2 : full_tx := Eval vm_compute in built_by seeded2.
Definition seeded3 : list wcall := seeded2 ++ [WConfirmTx tx_seeded2; WSendN 3 4 98 true].
Definition tx_seeded3 : full_tx := Eval vm_compute in built_by seeded3.

Definition life_ok (cs : list wcall) (bal cnt : N) : bool :=
  match history_b w_empty [] cs with
  | Some (w, held) => (balance w =? bal) && (count w =? cnt) && (worth held =? bal) && (len held =? cnt)
  | None => false
  end.
Lemma life_ok_after cs bal cnt : life_ok cs bal cnt = true ->
  exists w held, wallet_after quick_sha toy_pub toy_ssign cs w held /\
    balance w = bal /\ count w = cnt /\ worth held = bal /\ len held = cnt.
Proof.
  unfold life_ok. destruct (history_b w_empty [] cs) as [[w held]|] eqn:H; [|discriminate].
  rewrite !andb_true_iff, !N.eqb_eq. intros [[[A B] C] D]. exists w, held.
  split; [now apply history_b_ok|]. auto.
Qed.

Definition all_spendable (w : wallet) (held : list input) : bool :=
  forallb (fun i => is_spendable w i && (1 <=? coin_value i)) held.
Definition accepted (tx : full_tx) : bool :=
  match check_tx quick_sha (fun _ => true) toy_schnorr tx with Accepted => true | _ => false end.
Definition ready (cs : list wcall) : bool :=
  match history_b w_empty [] cs with Some (w, held) => all_spendable w held | None => false end.

Lemma lives_ok :
  life_ok life2 30 3 = true /\ life_ok life3 10 1 = true /\ life_ok life4 15 2 = true /\
  life_ok life6 15 4 = true /\ life_ok life7 2 1 = true /\
  life_ok seeded1 28 4 = true /\ life_ok seeded2 14 2 = true /\ life_ok seeded3 0 0 = true.
Proof. repeat match goal with |- _ /\ _ => split end; vm_compute; reflexivity. Qed.

Lemma builds_ok :
  ready life2 = true /\ length (tx_inputs tx_life3) = 2%nat /\ accepted tx_life3 = true /\
  ready life4 = true /\ length (tx_outputs tx_life5) = 4%nat /\ accepted tx_life5 = true /\
  ready life6 = true /\ length (tx_inputs tx_life7) = 3%nat /\ accepted tx_life7 = true /\
  ready seeded1 = true /\ accepted tx_seeded2 = true /\ accepted tx_seeded3 = true.
Proof. repeat match goal with |- _ /\ _ => split end; vm_compute; reflexivity. Qed.

Lemma ready_hyps cs : ready cs = true -> exists w held,
  wallet_after quick_sha toy_pub toy_ssign cs w held /\
  forall i, In i held -> is_spendable w i = true /\ 1 <= coin_value i.
Proof.
  unfold ready. destruct (history_b w_empty [] cs) as [[w held]|] eqn:H; [|discriminate].
  intros A. exists w, held. split; [now apply history_b_ok|]. unfold all_spendable in A. rewrite forallb_forall in A.
  intros i Hi. specialize (A i Hi). apply andb_true_iff in A as [B C]. split; [auto|now apply N.leb_le].
Qed.

(** Another party (a copy of the wallet) spends a coin that this wallet holds, and the wallet
    confirms that transaction. *)
Definition first_coin : input := hd (Input (OutPoint 0 0) (Output 0 0)) (received quick_sha (fst (w_run quick_sha toy_pub toy_ssign w_empty life1)) tx_life1).
Definition foreign : full_tx := FullTx [first_coin] [Output (addr 99) 10] [].
(** The same with another value for the coin. *)
Definition foreign25 : full_tx := FullTx [Input (in_prevout first_coin) (Output (out_commit (in_data first_coin)) 25)] [] [].

Definition step_toy := w_step quick_sha toy_pub toy_ssign.
Lemma foreign_debit_case : exists cs w held w1 w2 tx2,
  wallet_after quick_sha toy_pub toy_ssign cs w held /\ In first_coin held /\
  step_toy w (WConfirmTx foreign) = (w1, OAssert false) /\ balance w1 = 20 /\ count w1 = 2 /\
  step_toy w1 (WSend 30 98 true 41) = (w2, OTx (Built tx2)) /\ In first_coin (tx_inputs tx2) /\
  balance w2 = 2 ^ 64 - 10.
Proof.
  destruct (history_b w_empty [] life2) as [[w held]|] eqn:H; [|vm_compute in H; discriminate].
  exists life2, w, held.
  assert (T : match history_b w_empty [] life2 with
              | Some (w, held) =>
                  existsb (fun c => bool_decide (c = first_coin)) held &&
                  match step_toy w (WConfirmTx foreign) with
                  | (w1, OAssert false) => (balance w1 =? 20) && (count w1 =? 2) &&
                      match step_toy w1 (WSend 30 98 true 41) with
                      | (w2, OTx (Built tx2)) =>
                          existsb (fun c => bool_decide (c = first_coin)) (tx_inputs tx2) && (balance w2 =? 2 ^ 64 - 10)
                      | _ => false end
                  | _ => false end
              | None => false end = true) by (vm_compute; reflexivity).
  rewrite H in T. apply andb_true_iff in T as [T1 T].
  destruct (step_toy w (WConfirmTx foreign)) as [w1 [| |[]| | |]]; try discriminate T.
  apply andb_true_iff in T as [T2 T]. apply andb_true_iff in T2 as [T2 T3].
  destruct (step_toy w1 (WSend 30 98 true 41)) as [w2 [[tx2| | |]| | | | |]] eqn:S2; try discriminate T.
  apply andb_true_iff in T as [T4 T5].
  exists w1, w2, tx2. split; [now apply history_b_ok|].
  apply existsb_exists in T1 as (c & Hc & E). apply bool_decide_eq_true in E. subst c.
  apply existsb_exists in T4 as (c & Hc' & E). apply bool_decide_eq_true in E. subst c.
  apply N.eqb_eq in T2, T3, T5. auto 10.
Qed.

Lemma debit_value_case : exists cs w held w1 o,
  wallet_after quick_sha toy_pub toy_ssign cs w held /\ worth held = 30 /\ len held = 3 /\
  step_toy w (WConfirmTx foreign25) = (w1, o) /\ count w1 = 2 /\ balance w1 = 5.
Proof.
  destruct (history_b w_empty [] life2) as [[w held]|] eqn:H; [|vm_compute in H; discriminate].
  exists life2, w, held.
  assert (T : match history_b w_empty [] life2 with
              | Some (w, held) => (worth held =? 30) && (len held =? 3) &&
                  match step_toy w (WConfirmTx foreign25) with
                  | (w1, o) => (count w1 =? 2) && (balance w1 =? 5) end
              | None => false end = true) by (vm_compute; reflexivity).
  rewrite H in T. destruct (step_toy w (WConfirmTx foreign25)) as [w1 o].
  rewrite !andb_true_iff, !N.eqb_eq in T. destruct T as [[A B] [C D]].
  exists w1, o. split; [now apply history_b_ok|]. auto.
Qed.

Lemma seed_restart_case : exists cs w held w1,
  wallet_after quick_sha toy_pub toy_ssign cs w held /\ balance w = 28 /\
  step_toy w WRestart = (w1, ONone) /\ balance w1 = 0 /\
  forall sk v f t, snd (step_toy w1 (WSeed sk v f t)) = OBool false.
Proof.
  destruct (history_b w_empty [] seeded1) as [[w held]|] eqn:H; [|vm_compute in H; discriminate].
  exists seeded1, w, held.
  assert (T : match history_b w_empty [] seeded1 with
              | Some (w, held) => (balance w =? 28) &&
                  match step_toy w WRestart with
                  | (w1, ONone) => (balance w1 =? 0) && Nat.eqb (size (w_keys w1)) 1 | _ => false end
              | None => false end = true) by (vm_compute; reflexivity).
  rewrite H in T. destruct (step_toy w WRestart) as [w1 []]; try (rewrite andb_false_r in T; discriminate T).
  rewrite !andb_true_iff, !N.eqb_eq in T. destruct T as [A [B C]]. apply Nat.eqb_eq in C.
  exists w1. split; [now apply history_b_ok|]. split; [auto|]. split; [auto|]. split; [auto|].
  intros. unfold step_toy. cbn [w_step]. unfold seed. rewrite C. cbn [Nat.eqb negb].
  now destruct (to <=? from) || destruct (_ <=? _).
Qed.

Definition coin (i v : N) : input := Input (OutPoint i 0) (Output (addr 11) v).
Lemma overflow_case : exists w1,
  step_toy w_empty (WConfirmInputs [coin 1 (2 ^ 63); coin 2 (2 ^ 63)]) = (w1, OAssert true) /\
  count w1 = 2 /\ balance w1 = 0.
Proof.
  eexists. split; [reflexivity|]. split; vm_compute; reflexivity.
Qed.

Lemma send_zero_case : exists cs w held w1 tx,
  wallet_after quick_sha toy_pub toy_ssign cs w held /\ worth held = 30 /\
  step_toy w (WSend 0 99 true 1) = (w1, OTx (Built tx)) /\
  check_tx quick_sha (fun _ => true) toy_schnorr tx = Rejected (TxError no_inputs).
Proof.
  destruct (history_b w_empty [] life2) as [[w held]|] eqn:H; [|vm_compute in H; discriminate].
  exists life2, w, held.
  assert (T : match history_b w_empty [] life2 with
              | Some (w, held) => (worth held =? 30) &&
                  match step_toy w (WSend 0 99 true 1) with
                  | (w1, OTx (Built tx)) => match check_tx quick_sha (fun _ => true) toy_schnorr tx with
                                            | Rejected (TxError no_inputs) => true | _ => false end
                  | _ => false end
              | None => false end = true) by (vm_compute; reflexivity).
  rewrite H in T. apply andb_true_iff in T as [A T]. apply N.eqb_eq in A.
  destruct (step_toy w (WSend 0 99 true 1)) as [w1 [[tx| | |]| | | | |]] eqn:S; try discriminate T.
  exists w1, tx. split; [now apply history_b_ok|]. split; [auto|]. split; [auto|].
  destruct (check_tx _ _ _ tx) as [|[| | |[]]|]; try discriminate T. reflexivity.
Qed.

Lemma fan_wrap_case sha pub_of ssign : exists n v w1 tx,
  n < 2 ^ 64 /\ v < 2 ^ 32 /\
  fan sha pub_of ssign w_empty n v 99 false 0 = (w1, Built tx) /\
  tx_inputs tx = [] /\ len (tx_outputs tx) = n /\ 1 <= v.
Proof.
  exists (2 ^ 33), (2 ^ 31). eexists _, _. split; [reflexivity|]. split; [reflexivity|].
  split.
  - unfold fan. replace (mul64 (2 ^ 33) (2 ^ 31)) with 0 by (vm_compute; reflexivity).
    assert (E : accumulate_inputs sha w_empty 0 = (w_empty, Some ([], [], 0))) by reflexivity.
    rewrite E. change (0 <? 0) with false. cbn match. unfold finish_tx. reflexivity.
  - cbn [tx_inputs tx_outputs]. split; [reflexivity|]. split; [|vm_compute; discriminate].
    unfold len. rewrite app_length, repeat_length. cbn [length Nat.add]. apply N2Nat.id.
Qed.

(** A wallet file that lost its last bytes: load says nothing, and a coin is missing. *)
Lemma truncated_case : exists cs w held w1,
  wallet_after quick_sha toy_pub toy_ssign cs w held /\ balance w = 30 /\
  load quick_sha w_empty (firstn (length (save w) - 1) (save w)) = Some w1 /\ balance w1 = 20.
Proof.
  destruct (history_b w_empty [] life2) as [[w held]|] eqn:H; [|vm_compute in H; discriminate].
  exists life2, w, held.
  assert (T : match history_b w_empty [] life2 with
              | Some (w, held) => (balance w =? 30) &&
                  match load quick_sha w_empty (firstn (length (save w) - 1) (save w)) with
                  | Some w1 => balance w1 =? 20 | _ => false end
              | None => false end = true) by (vm_compute; reflexivity).
  rewrite H in T. apply andb_true_iff in T as [A T]. apply N.eqb_eq in A.
  destruct (load quick_sha w_empty _) as [w1|] eqn:S; [|discriminate T]. apply N.eqb_eq in T.
  exists w1. split; [now apply history_b_ok|]. auto.
Qed.
