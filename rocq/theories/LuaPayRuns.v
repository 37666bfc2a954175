(** Proofs for property C95: many payments, and the wallet. *)
From Coq Require Import NArith ZArith List Bool Lia.
From stdpp Require Import base option list.
From Verif Require Import Base CodecModel CodecProofs LuaModel LuaPayModel LuaPaySpec LuaPayProofs.
Import ListNotations.
Open Scope N_scope.

Local Opaque pack le_bytes.

(** ** Money *)

Lemma money_perm db l l' : l ≡ₚ l' -> money db l = money db l'.
Proof. induction 1; simpl; lia. Qed.
Lemma money_ext db db' l : (forall a, a ∈ l -> balance db' a = balance db a) -> money db' l = money db l.
Proof.
  induction l as [|a l IH]; intros H; [done|]. simpl. rewrite IH, H; [done|left|].
  intros b Hb. apply H. by right.
Qed.
Lemma money_moved db db' l f t v : NoDup l -> f ∈ l -> t ∈ l -> f <> t ->
  balance db' f + v = balance db f -> balance db' t = balance db t + v ->
  (forall a, a <> f -> a <> t -> balance db' a = balance db a) -> money db' l = money db l.
Proof.
  intros ND Hf Ht Ne B1 B2 B3.
  apply elem_of_Permutation in Hf as [l1 E1]. rewrite E1 in Ht, ND.
  apply elem_of_cons in Ht as [->|Ht]; [done|].
  apply elem_of_Permutation in Ht as [l2 E2]. rewrite E2 in ND.
  assert (E : l ≡ₚ f :: t :: l2) by (by rewrite E1, E2).
  rewrite !(money_perm _ _ _ E). simpl.
  apply NoDup_cons in ND as [N1 ND]. apply NoDup_cons in ND as [N2 ND].
  rewrite (money_ext db db' l2); [lia|]. intros a Ha. apply B3; intros ->; [|done].
  apply N1. by right.
Qed.
Lemma money_le db l a : a ∈ l -> balance db a <= money db l.
Proof. induction 1; simpl; lia. Qed.

Section pay.
  Context (parse : bytes -> bool) (verify : bytes -> bytes -> bytes -> bool)
    (sha256 : bytes -> bytes).
  Notation pay := (pay parse verify sha256).
  Notation pay_step := (pay_step parse verify sha256).
  Notation pay_steps := (pay_steps parse verify sha256).
  Notation authorised := (authorised parse verify sha256).

  Lemma step_money l db p : NoDup l -> Forall (sound db) l -> among l p ->
    money (pay_step db p) l = money db l.
  Proof.
    intros ND S (R & H1 & H2 & Ne & _). unfold LuaPayModel.pay_step.
    destruct (pay db p) as [u|] eqn:Hu; [|done].
    assert (S1 : sound db (payer p)) by (by apply (proj1 (Forall_forall _ _) S)).
    assert (S2 : sound db (payee p)) by (by apply (proj1 (Forall_forall _ _) S)).
    destruct (decide (0 < value p < 2 ^ 63)) as [Hv|Hv].
    - destruct (pay_effect parse verify sha256 db p u R S1 S2 Hu Ne Hv) as (B1 & B2 & _ & _ & B3).
      apply (money_moved _ _ _ (payer p) (payee p) (value p)); try done.
      intros a A1 A2. unfold balance. rewrite B3; [done|..]; intros ?%account_inj'; done.
    - destruct (pay_nothing parse verify sha256 db p u R S1 S2 Hu ltac:(lia)) as (_ & B & _).
      apply money_ext. by intros a _.
  Qed.

  Lemma le_sound db a b s : db (account a) = le_bytes 8 b ++ le_bytes 8 s ->
    balance db a < 2 ^ 63 -> s < 2 ^ 63 -> sound db a.
  Proof.
    intros E B S. right. split_and!; [| |done|].
    - by rewrite E, app_length, !le_bytes_length.
    - rewrite E. apply Forall_app. split; apply le_bytes_is_byte.
    - rewrite (db_sequence _ _ _ _ E); [done|]. rewrite p63, p64 in *. lia.
  Qed.

  Lemma find_acc (u : list (bytes * bytes)) db k : store db u k = db k \/ exists v, (k, v) ∈ u /\ store db u k = v.
  Proof.
    unfold store. destruct (find _ u) as [[k' v]|] eqn:E; [|by left].
    apply find_some in E as [H E]. apply bool_decide_eq_true in E. simpl in E. subst k'.
    right. exists v. split; [by apply elem_of_list_In|done].
  Qed.

  Lemma step_sound l db p : NoDup l -> Forall (sound db) l -> money db l < 2 ^ 63 -> among l p ->
    Forall (sound (pay_step db p)) l.
  Proof.
    intros ND S M A. pose proof (step_money l db p ND S A) as EM.
    assert (B : forall a, a ∈ l -> balance (pay_step db p) a < 2 ^ 63).
    { intros a Ha. pose proof (money_le (pay_step db p) l a Ha). lia. }
    apply Forall_forall. intros a Ha. specialize (B a Ha). revert B.
    destruct A as (R & H1 & H2 & Ne & Hq). unfold LuaPayModel.pay_step.
    destruct (pay db p) as [u|] eqn:Hu; [|by intros _; apply (proj1 (Forall_forall _ _) S)].
    assert (S0 : sound db a) by (by apply (proj1 (Forall_forall _ _) S)).
    assert (S1 : sound db (payer p)) by (by apply (proj1 (Forall_forall _ _) S)).
    assert (S2 : sound db (payee p)) by (by apply (proj1 (Forall_forall _ _) S)).
    destruct (sound_lt _ _ S2) as [_ Ls2].
    intros B. destruct (find_acc u db (account a)) as [E|(v & Hin & E)].
    - unfold sound, balance, sequence in *. by rewrite E.
    - assert (Hs : exists b s, v = le_bytes 8 b ++ le_bytes 8 s /\ s < 2 ^ 63).
      { destruct (pay_writes parse verify sha256 db p u R S1 S2 Hu) as [(_ & _ & ->)|(_ & ->)].
        - rewrite bool_decide_false in Hin by done. cbn [app] in Hin.
          apply elem_of_cons in Hin as [[= _ ->]|Hin].
          + eexists _, _. split; [reflexivity|]. rewrite p63 in *. lia.
          + apply elem_of_list_singleton in Hin as [= _ ->]. eexists _, _. split; [reflexivity|done].
        - apply elem_of_list_singleton in Hin as [= _ ->]. eexists _, _. split; [reflexivity|].
          rewrite p63 in *. lia. }
      destruct Hs as (b & s & -> & Ls). by apply (le_sound _ a b s).
  Qed.

  Lemma steps_money l ps : NoDup l -> forall db, Forall (sound db) l -> money db l < 2 ^ 63 ->
    Forall (among l) ps ->
    money (pay_steps db ps) l = money db l /\ Forall (sound (pay_steps db ps)) l.
  Proof.
    intros ND. induction ps as [|p ps IH]; intros db S M A; [done|].
    inversion A as [|? ? A1 A2]; subst. pose proof (step_money l db p ND S A1) as E.
    destruct (IH (pay_step db p)) as [I1 I2]; [by apply step_sound|by rewrite E|done|].
    simpl in *. split; [by rewrite <- E|done].
  Qed.

  (** ** Only the owner *)

  Lemma step_owner db p a : request p -> sound db (payer p) -> sound db (payee p) ->
    balance (pay_step db p) a < balance db a \/ sequence (pay_step db p) a <> sequence db a ->
    a = payer p /\ authorised p.
  Proof.
    intros R S1 S2. unfold LuaPayModel.pay_step. destruct (pay db p) as [u|] eqn:Hu; [|lia].
    destruct (proj1 (pay_iff parse verify sha256 db p R S1 S2) (ex_intro _ u Hu)) as (A & _).
    intros H. split; [|done].
    destruct (decide (a = payer p)) as [E|N1]; [done|exfalso].
    destruct (decide (0 < value p < 2 ^ 63)) as [Hv|Hv].
    - destruct (decide (payer p = payee p)) as [E|Ne].
      + destruct (pay_writes parse verify sha256 db p u R S1 S2 Hu) as [(_ & _ & ->)|(? & _)]; [|lia].
        rewrite bool_decide_true in H by done. cbn [app] in H.
        assert (E1 : forall x, store db [(account (payee p), x)] (account a) = db (account a)).
        { intros x. unfold store. cbn [find fst snd]. rewrite bool_decide_false; [done|].
          intros ?%account_inj'. congruence. }
        unfold balance, sequence in H. rewrite E1 in H. lia.
      + destruct (pay_effect parse verify sha256 db p u R S1 S2 Hu Ne Hv) as (_ & B2 & _ & Q2 & B3).
        destruct (decide (a = payee p)) as [->|N2]; [lia|].
        assert (E1 : store db u (account a) = db (account a))
          by (apply B3; intros ?%account_inj'; done).
        unfold balance, sequence in H. rewrite E1 in H. lia.
    - destruct (pay_nothing parse verify sha256 db p u R S1 S2 Hu ltac:(lia)) as (_ & _ & B3).
      assert (E1 : store db u (account a) = db (account a))
        by (apply B3; intros ?%account_inj'; done).
      unfold balance, sequence in H. rewrite E1 in H. lia.
  Qed.

  (** ** No replay *)

  Lemma pack_bytes z : exists n, pack z = le_bytes 8 n /\ n < 2 ^ 64.
  Proof. exists (Z.to_N (z mod 2 ^ 64)). split; [reflexivity|apply zmod_lt]. Qed.

  Definition at_least (q : N) (db : bytes -> bytes) (a : bytes) : Prop :=
    exists b s, db (account a) = le_bytes 8 b ++ le_bytes 8 s /\ q <= s < 2 ^ 63.

  Lemma unpack_two b s : s < 2 ^ 63 -> exists x,
    unpack_account (le_bytes 8 b ++ le_bytes 8 s) = Some (x, Z.of_N s).
  Proof.
    intros H. unfold unpack_account. rewrite app_length, !le_bytes_length. simpl. eexists.
    unfold unpack. rewrite drop_le_bytes, take_self. rewrite value_le_bytes.
    - rewrite (lua_int_small s) by done. reflexivity.
    - rewrite p63, p64 in *. lia.
  Qed.

  Lemma pack_next q : q < 2 ^ 63 - 1 -> pack (lua_add (lua_int q) 1) = le_bytes 8 (q + 1).
  Proof.
    intros H. rewrite p63 in H. rewrite lua_int_small by (rewrite p63; lia).
    rewrite pack_add_small by (rewrite z64; lia). f_equal. lia.
  Qed.

  Lemma step_seq q db a p : request p -> seq_no p < 2 ^ 63 - 1 -> at_least q db a ->
    at_least q (pay_step db p) a.
  Proof.
    intros R Hq (b & s & E & Hs1 & Hs2). unfold LuaPayModel.pay_step.
    destruct (pay db p) as [u|] eqn:Hu; [|by exists b, s].
    apply pay_inv in Hu as (_ & fb & fs & F & Q & V & H); [|done].
    assert (Hown : a = payer p -> q <= seq_no p + 1 < 2 ^ 63).
    { intros ->. rewrite E in F. destruct (unpack_two b s Hs2) as [x Hx]. rewrite Hx in F.
      injection F as _ <-. rewrite lua_int_small in Q by (rewrite p63 in *; lia).
      rewrite p63 in *. lia. }
    destruct (find_acc u db (account a)) as [E'|(v & Hin & E')].
    { exists b, s. by rewrite E'. }
    destruct H as [[H0 (tb & ts & F2 & ->)]|[H0 ->]].
    - apply elem_of_app in Hin as [Hin|Hin].
      + destruct (bool_decide (payer p = payee p)); [by apply elem_of_nil in Hin|].
        apply elem_of_list_singleton in Hin as [= Ha ->].
        destruct (pack_bytes (lua_add fb (- lua_int (value p)))) as (n & En & _).
        exists n, (seq_no p + 1). split; [by rewrite E', En, (pack_next _ Hq)|auto].
      + apply elem_of_list_singleton in Hin as [= Ha ->]. subst a.
        rewrite E in F2. destruct (unpack_two b s Hs2) as [x Hx]. rewrite Hx in F2.
        injection F2 as _ <-.
        destruct (pack_bytes (lua_add tb (lua_int (value p)))) as (n & En & _).
        exists n, s. split; [|done]. rewrite E', En, <- (lua_int_small s Hs2), pack_int; [done|].
        rewrite p63, p64 in *. lia.
    - apply elem_of_list_singleton in Hin as [= Ha ->].
      destruct (pack_bytes fb) as (n & En & _).
      exists n, (seq_no p + 1). split; [by rewrite E', En, (pack_next _ Hq)|auto].
  Qed.

  Lemma steps_seq q a ps : Forall fresh ps -> forall db, at_least q db a ->
    at_least q (pay_steps db ps) a.
  Proof.
    induction 1 as [|p ps [R Hq] _ IH]; intros db H; [done|]. simpl. apply IH. by apply step_seq.
  Qed.

  Lemma no_replay db p u ps u' : fresh p -> pay db p = Updates u ->
    payer p <> payee p \/ value p = 0 \/ 2 ^ 63 <= value p ->
    Forall fresh ps -> pay (pay_steps (store db u) ps) p <> Updates u'.
  Proof.
    intros [R Hq] Hu Hp Hps Hu'.
    assert (A : at_least (seq_no p + 1) (store db u) (payer p)).
    { apply pay_inv in Hu as (_ & fb & fs & F & Q & V & H); [|done].
      pose proof (request_value p R) as Lv.
      destruct H as [[H0 (tb & ts & F2 & ->)]|[H0 ->]].
      - destruct Hp as [Ne|[Hv|Hv]]; [|rewrite Hv in H0; by cbn in H0|
          pose proof (lua_int_big _ Hv Lv); lia].
        destruct (pack_bytes (lua_add fb (- lua_int (value p)))) as (n & En & _).
        exists n, (seq_no p + 1). split; [|rewrite p63 in *; lia].
        rewrite bool_decide_false by done. cbn [app]. unfold store. cbn [find fst snd].
        rewrite bool_decide_true by done. by rewrite En, (pack_next _ Hq).
      - destruct (pack_bytes fb) as (n & En & _).
        exists n, (seq_no p + 1). split; [|rewrite p63 in *; lia].
        unfold store. cbn [find fst snd]. rewrite bool_decide_true by done.
        cbn [snd]. by rewrite En, (pack_next _ Hq). }
    apply (steps_seq _ _ ps Hps) in A as (b & s & E & Hs).
    apply pay_inv in Hu' as (_ & fb & fs & F & Q & _); [|done].
    rewrite E in F. destruct (unpack_two b s (proj2 Hs)) as [x Hx]. rewrite Hx in F.
    injection F as _ <-. rewrite lua_int_small in Q by (rewrite p63 in *; lia). lia.
  Qed.

  (** ** The wallet *)

  Lemma wallet_follows db p u w : request p -> payer p = aw_key w -> pay db p = Updates u ->
    exists w', wallet_result w (Updates u) = Some w' /\ aw_key w' = aw_key w /\
      in_sync (store db u) w'.
  Proof.
    intros R Hk Hu.
    assert (F : exists e, find (fun e => bool_decide (fst e = account (aw_key w))) u = Some e).
    { apply pay_inv in Hu as (_ & fb & fs & _ & _ & _ & H); [|done]. rewrite <- Hk.
      destruct H as [[_ (tb & ts & _ & ->)]|[_ ->]].
      - destruct (decide (payer p = payee p)) as [E|E].
        + rewrite bool_decide_true by done. cbn [app find fst]. rewrite <- E.
          rewrite bool_decide_true by done. eauto.
        + rewrite bool_decide_false by done. cbn [app find fst].
          rewrite bool_decide_true by done. eauto.
      - cbn [find fst]. rewrite bool_decide_true by done. eauto. }
    destruct F as [e F]. unfold wallet_result. change account_key with account. rewrite F.
    eexists. split; [reflexivity|]. split; [done|]. unfold in_sync, balance, sequence, store.
    cbn [aw_key aw_balance aw_seq]. by rewrite F.
  Qed.

  Context (sign : bytes -> bytes).
  Notation make_pay_params := (make_pay_params sha256 sign).
  Notation wallet_pay := (wallet_pay sha256 sign).

  Lemma params_parts w to amount : length (aw_key w) = 32%nat -> length to = 32%nat ->
    (forall h, length (sign h) = 64%nat) ->
    amount < 2 ^ 64 -> aw_seq w < 2 ^ 64 ->
    let p := make_pay_params w to amount in
    length p = 144%nat /\ payer p = aw_key w /\ payee p = to /\ value p = amount /\
    seq_no p = aw_seq w /\ signature p = sign (sha256 (signed_part p)).
  Proof.
    intros L1 L2 L3 Ha Hs p.
    set (h := sha256 (to ++ le_bytes 8 amount ++ le_bytes 8 (aw_seq w))).
    assert (D32 : drop 32 p = to ++ le_bytes 8 amount ++ le_bytes 8 (aw_seq w) ++ sign h).
    { unfold p, LuaPayModel.make_pay_params. rewrite drop_app_alt by done. done. }
    assert (D64 : drop 64 p = le_bytes 8 amount ++ le_bytes 8 (aw_seq w) ++ sign h).
    { replace 64%nat with (32 + 32)%nat by done. rewrite <- drop_drop, D32.
      by rewrite drop_app_alt. }
    assert (D72 : drop 72 p = le_bytes 8 (aw_seq w) ++ sign h).
    { replace 72%nat with (64 + 8)%nat by done. by rewrite <- drop_drop, D64, drop_le_bytes. }
    assert (D80 : drop 80 p = sign h).
    { replace 80%nat with (72 + 8)%nat by done. by rewrite <- drop_drop, D72, drop_le_bytes. }
    assert (SP : signed_part p = to ++ le_bytes 8 amount ++ le_bytes 8 (aw_seq w)).
    { unfold signed_part. rewrite D32, !(assoc_L (++)), take_app_alt; [done|].
      rewrite !app_length, !le_bytes_length. lia. }
    split_and!.
    - unfold p, LuaPayModel.make_pay_params. rewrite !app_length, !le_bytes_length, L3. lia.
    - unfold payer, p, LuaPayModel.make_pay_params. by rewrite take_app_alt.
    - unfold payee. rewrite D32. by rewrite take_app_alt.
    - unfold value. rewrite D64, take_le_bytes. by apply value_le_bytes.
    - unfold seq_no. rewrite D72, take_le_bytes. by apply value_le_bytes.
    - unfold signature. rewrite D80, SP. apply take_ge. rewrite L3. lia.
  Qed.

  Lemma wallet_pays db w to amount :
    length (aw_key w) = 32%nat -> length to = 32%nat -> Forall is_byte (aw_key w) ->
    Forall is_byte to -> parse (aw_key w) = true ->
    (forall h, length (sign h) = 64%nat /\ Forall is_byte (sign h) /\
               verify (aw_key w) (sign h) h = true) ->
    sound db (aw_key w) -> sound db to -> in_sync db w -> amount <= aw_balance w ->
    exists p u w', wallet_pay w to amount = Some p /\ pay db p = Updates u /\
      wallet_result w (Updates u) = Some w' /\ in_sync (store db u) w' /\
      payer p = aw_key w /\ payee p = to /\ value p = amount /\ seq_no p = aw_seq w.
  Proof.
    intros L1 L2 B1 B2 Pk Sg S1 S2 [Y1 Y2] Ha.
    destruct (sound_lt _ _ S1) as [Lb Ls]. rewrite Y1 in Lb. rewrite Y2 in Ls.
    destruct (params_parts w to amount L1 L2) as (PL & P1 & P2 & P3 & P4 & P5);
      [by intros h; apply Sg|rewrite p63, p64 in *; lia|rewrite p63, p64 in *; lia|].
    set (p := make_pay_params w to amount) in *.
    assert (R : request p).
    { split; [|lia]. unfold p, LuaPayModel.make_pay_params. rewrite !Forall_app.
      split_and!; try done; try apply le_bytes_is_byte. apply Sg. }
    assert (S1' : sound db (payer p)) by by rewrite P1.
    assert (S2' : sound db (payee p)) by by rewrite P2.
    assert (Hu : exists u, pay db p = Updates u).
    { apply (pay_iff parse verify sha256 db p R S1' S2'). unfold LuaPaySpec.authorised.
      rewrite P1, P3, P4, P5. split_and!; [done|apply Sg|lia|done|left; lia]. }
    destruct Hu as [u Hu].
    destruct (wallet_follows db p u w R P1 Hu) as (w' & W1 & W2 & W3).
    exists p, u, w'. unfold LuaPayModel.wallet_pay. rewrite (proj2 (N.ltb_ge _ _) Ha). done.
  Qed.

  Lemma wallet_refuses w to amount p : wallet_pay w to amount = Some p -> amount <= aw_balance w.
  Proof. unfold LuaPayModel.wallet_pay. destruct (N.ltb_spec (aw_balance w) amount); [discriminate|done]. Qed.

  Lemma wallet_failure db w p e : in_sync db w -> pay db p = Failed e ->
    exists w', wallet_result w (Failed e) = Some w' /\ aw_key w' = aw_key w /\
      in_sync (pay_step db p) w'.
  Proof. intros S E. exists w. unfold LuaPayModel.pay_step. rewrite E. done. Qed.
End pay.
