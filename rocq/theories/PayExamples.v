(** Concrete payments between two clients. *)
From Coq Require Import NArith List Bool Lia.
From stdpp Require Import base decidable list gmap.
From Verif Require Import Base CodecModel TxModel TxExamples ValidationModel ValidationSpec WalletModel WalletSpec
  WalletExamples WatchtowerModel ClientModel ClientSpec ClientExamples PaySpec.
Import ListNotations.
Open Scope N_scope.

(** The payee has 7 and a key; the payer, who has 30, pays 15 to it, or twice 5. *)
Definition payee_mint : full_tx := Eval vm_compute in made_by [CKey 51; CMint [52] 7].
Definition payee_day : list ccall := [CKey 51; CMint [52] 7; CConfirm (toy_id payee_mint)].
Definition payee_key : N := toy_pub 51.
Definition pay_call : ccall := CCreate 15 payee_key 21.
Definition pay_tx : full_tx := Eval vm_compute in made_by (day2 ++ [pay_call]).
Definition fan_call : ccall := CFan 2 5 payee_key 21.
Definition fan_tx : full_tx := Eval vm_compute in made_by (day2 ++ [fan_call]).

Definition new_b (b : books) (tx : full_tx) : bool :=
  match b_sent b !! (toy_id tx : N), b_expected b !! (toy_id tx : N) with None, None => true | _, _ => false end &&
  forallb (fun i => negb (op_txid (in_prevout i) =? toy_id tx)) (b_own b) &&
  forallb (fun p => negb (op_txid p =? toy_id tx)) (b_gone b) &&
  forallb (fun i => negb (bool_decide (input_hash quick_sha i ∈ ctx_outputs (to_compact quick_sha tx)))) (b_own b) &&
  bool_decide (base.NoDup (map (input_hash quick_sha) (b_own b))).
Lemma new_b_ok b tx : new_b b tx = true ->
  b_sent b !! (toy_id tx : N) = None /\ b_expected b !! (toy_id tx : N) = None /\
  (forall p, op_txid p = toy_id tx -> p ∉ outpoints (b_own b) /\ p ∉ b_gone b) /\
  (forall i, In i (b_own b) -> input_hash quick_sha i ∉ ctx_outputs (to_compact quick_sha tx)) /\
  base.NoDup (map (input_hash quick_sha) (b_own b)).
Proof.
  unfold new_b. rewrite !andb_true_iff, !forallb_forall. intros [[[[A B] C] D] E].
  apply bool_decide_eq_true in E.
  destruct (b_sent b !! _); [discriminate A|]. destruct (b_expected b !! _); [discriminate A|].
  split; [reflexivity|]. split; [reflexivity|]. split; [|split; [|exact E]].
  - intros p Hp. split; intros H; apply elem_of_list_In in H.
    + apply in_map_iff in H as (y & Y1 & Y2). specialize (B y Y2). rewrite Y1, Hp, N.eqb_refl in B. discriminate B.
    + specialize (C p H). rewrite Hp, N.eqb_refl in C. discriminate C.
  - intros i Hi. specialize (D i Hi). apply negb_true_iff, bool_decide_eq_false in D. exact D.
Qed.

Lemma pay_case : exists c b c1 d bd,
  client_after quick_sha toy_pub toy_ssign day2 c b /\
  c_step quick_sha toy_pub toy_ssign c pay_call = (c1, CoTx (Built pay_tx)) /\
  client_after quick_sha toy_pub toy_ssign payee_day d bd /\
  is_ours (cl_wallet d) (get_p2pk_witness_commitment quick_sha payee_key) = true /\
  b_sent bd !! (tx_id quick_sha pay_tx : N) = None /\ b_expected bd !! (tx_id quick_sha pay_tx : N) = None /\
  (forall p, op_txid p = tx_id quick_sha pay_tx -> p ∉ outpoints (b_own bd) /\ p ∉ b_gone bd) /\
  worth (b_own bd) + 15 < 2 ^ 64 /\ cl_balance d = 7 /\
  (forall i, In i (b_own bd) -> input_hash quick_sha i ∉ ctx_outputs (to_compact quick_sha pay_tx)) /\
  base.NoDup (map (input_hash quick_sha) (b_own bd)).
Proof.
  assert (G : match chistory_b cl_new b_new payee_day with
    | Some (d, bd) => is_ours (cl_wallet d) (get_p2pk_witness_commitment quick_sha payee_key) &&
        new_b bd pay_tx && (worth (b_own bd) + 15 <? 2 ^ 64) && (cl_balance d =? 7)
    | None => false end = true) by (vm_compute; reflexivity).
  assert (G2 : match chistory_b cl_new b_new day2 with
    | Some (c, b) => match snd (toy_step c pay_call) with
                     | CoTx (Built tx) => bool_decide (tx = pay_tx) | _ => false end
    | None => false end = true) by (vm_compute; reflexivity).
  destruct (chistory_b cl_new b_new payee_day) as [[d bd]|] eqn:H; [|discriminate G].
  destruct (chistory_b cl_new b_new day2) as [[c b]|] eqn:H2; [|discriminate G2].
  rewrite !andb_true_iff, N.ltb_lt, N.eqb_eq in G. destruct G as [[[A B] C] D].
  destruct (toy_step c pay_call) as [c1 o] eqn:S. cbn [snd] in G2.
  destruct o as [[tx| | |]| | | |]; try discriminate G2. apply bool_decide_eq_true in G2. subst tx.
  destruct (new_b_ok _ _ B) as (B1 & B2 & B3 & B4 & B5).
  exists c, b, c1, d, bd.
  split; [now apply chistory_b_ok|]. split; [exact S|]. split; [now apply chistory_b_ok|].
  split; [exact A|]. split; [exact B1|]. split; [exact B2|]. split; [exact B3|]. split; [exact C|].
  split; [exact D|]. split; [exact B4|exact B5].
Qed.

Definition awaited_b (c : client) (b : books) (i : input) : bool :=
  is_ours (cl_wallet c) (out_commit (in_data i)) &&
  match b_sent b !! (op_txid (in_prevout i) : N) with None => true | _ => false end &&
  again_b b i && negb (bool_decide (in_prevout i ∈ outpoints (b_own b))) &&
  match b_expected b !! (op_txid (in_prevout i) : N) with None => true | _ => false end.
Lemma awaited_b_ok c b l : forallb (awaited_b c b) l = true ->
  Forall (awaited c b) l /\ Forall (fun i => b_expected b !! (op_txid (in_prevout i) : N) = None) l.
Proof.
  intros H. rewrite forallb_forall in H.
  split; apply Forall_forall; intros i Hi; apply elem_of_list_In in Hi; specialize (H i Hi);
    unfold awaited_b in H; rewrite !andb_true_iff in H; destruct H as [[[[A B] C] D] E].
  - split; [exact A|]. split; [now destruct (b_sent b !! _)|]. split; [now apply again_b_ok|].
    now apply negb_true_iff, bool_decide_eq_false in D.
  - now destruct (b_expected b !! _).
Qed.

(** The two coins of a fan: announced together one of them is credited, one after the other
    both are. *)
Lemma fan_case : exists c b c1 d bd,
  client_after quick_sha toy_pub toy_ssign day2 c b /\
  c_step quick_sha toy_pub toy_ssign c fan_call = (c1, CoTx (Built fan_tx)) /\
  client_after quick_sha toy_pub toy_ssign payee_day d bd /\
  Forall (awaited d bd) (export_send_inputs quick_sha fan_tx payee_key) /\
  Forall (fun i => b_expected bd !! (op_txid (in_prevout i) : N) = None) (export_send_inputs quick_sha fan_tx payee_key) /\
  base.NoDup (outpoints (export_send_inputs quick_sha fan_tx payee_key)) /\
  worth (export_send_inputs quick_sha fan_tx payee_key ++ b_own bd) < 2 ^ 64 /\
  base.NoDup (map (input_hash quick_sha) (export_send_inputs quick_sha fan_tx payee_key ++ b_own bd)) /\
  worth (export_send_inputs quick_sha fan_tx payee_key) = 10 /\
  cl_balance (fst (c_run quick_sha toy_pub toy_ssign d
    (together (export_send_inputs quick_sha fan_tx payee_key) (tx_id quick_sha fan_tx)))) = cl_balance d + 5 /\
  cl_balance (fst (c_run quick_sha toy_pub toy_ssign d
    (one_by_one (export_send_inputs quick_sha fan_tx payee_key)))) = cl_balance d + 10.
Proof.
  assert (G : match chistory_b cl_new b_new payee_day with
    | Some (d, bd) =>
        forallb (awaited_b d bd) (export_send_inputs quick_sha fan_tx payee_key) &&
        bool_decide (base.NoDup (outpoints (export_send_inputs quick_sha fan_tx payee_key))) &&
        (worth (export_send_inputs quick_sha fan_tx payee_key ++ b_own bd) <? 2 ^ 64) &&
        bool_decide (base.NoDup (map (input_hash quick_sha) (export_send_inputs quick_sha fan_tx payee_key ++ b_own bd))) &&
        (worth (export_send_inputs quick_sha fan_tx payee_key) =? 10) &&
        (cl_balance (fst (c_run quick_sha toy_pub toy_ssign d
          (together (export_send_inputs quick_sha fan_tx payee_key) (tx_id quick_sha fan_tx)))) =? cl_balance d + 5) &&
        (cl_balance (fst (c_run quick_sha toy_pub toy_ssign d
          (one_by_one (export_send_inputs quick_sha fan_tx payee_key)))) =? cl_balance d + 10)
    | None => false end = true) by (vm_compute; reflexivity).
  assert (G2 : match chistory_b cl_new b_new day2 with
    | Some (c, b) => match snd (toy_step c fan_call) with
                     | CoTx (Built tx) => bool_decide (tx = fan_tx) | _ => false end
    | None => false end = true) by (vm_compute; reflexivity).
  destruct (chistory_b cl_new b_new payee_day) as [[d bd]|] eqn:H; [|discriminate G].
  destruct (chistory_b cl_new b_new day2) as [[c b]|] eqn:H2; [|discriminate G2].
  rewrite !andb_true_iff, !N.eqb_eq, N.ltb_lt in G. destruct G as [[[[[[A1 A2] A3] A4] A] B] C].
  apply bool_decide_eq_true in A2, A4. destruct (awaited_b_ok _ _ _ A1) as (A5 & A6).
  destruct (toy_step c fan_call) as [c1 o] eqn:S. cbn [snd] in G2.
  destruct o as [[tx| | |]| | | |]; try discriminate G2. apply bool_decide_eq_true in G2. subst tx.
  exists c, b, c1, d, bd.
  split; [now apply chistory_b_ok|]. split; [exact S|]. split; [now apply chistory_b_ok|].
  split; [exact A5|]. split; [exact A6|]. split; [exact A2|]. split; [exact A3|]. split; [exact A4|].
  split; [exact A|]. split; [exact B|exact C].
Qed.

Lemma fan_case_full : exists ks c b n v payee rnd c1 tx ks' d bd,
  client_after quick_sha toy_pub toy_ssign ks c b /\
  c_step quick_sha toy_pub toy_ssign c (CFan n v payee rnd) = (c1, CoTx (Built tx)) /\
  client_after quick_sha toy_pub toy_ssign ks' d bd /\
  Forall (awaited d bd) (export_send_inputs quick_sha tx payee) /\
  Forall (fun i => b_expected bd !! (op_txid (in_prevout i) : N) = None) (export_send_inputs quick_sha tx payee) /\
  base.NoDup (outpoints (export_send_inputs quick_sha tx payee)) /\
  worth (export_send_inputs quick_sha tx payee ++ b_own bd) < 2 ^ 64 /\
  base.NoDup (map (input_hash quick_sha) (export_send_inputs quick_sha tx payee ++ b_own bd)) /\
  worth (export_send_inputs quick_sha tx payee) = n * v /\
  cl_balance (fst (c_run quick_sha toy_pub toy_ssign d
    (together (export_send_inputs quick_sha tx payee) (tx_id quick_sha tx)))) = cl_balance d + v /\
  cl_balance (fst (c_run quick_sha toy_pub toy_ssign d
    (one_by_one (export_send_inputs quick_sha tx payee)))) = cl_balance d + n * v /\
  cl_balance d + v < cl_balance d + n * v.
Proof.
  destruct fan_case as (c & b & c1 & d & bd & H1 & H2 & H3 & H4 & H5 & H6 & H7 & H8 & H9 & H10 & H11).
  exists day2, c, b, 2, 5, payee_key, 21, c1, fan_tx, payee_day, d, bd.
  split; [exact H1|]. split; [exact H2|]. split; [exact H3|]. split; [exact H4|]. split; [exact H5|].
  split; [exact H6|]. split; [exact H7|]. split; [exact H8|]. split; [exact H9|]. split; [exact H10|].
  split; [exact H11|]. lia.
Qed.
