(** Proofs for property C95. *)
From Coq Require Import NArith ZArith List Bool Lia.
From stdpp Require Import base option list.
From Verif Require Import Base CodecModel CodecProofs LuaModel LuaPayModel LuaPaySpec.
Import ListNotations.
Open Scope N_scope.

(** ** Numbers *)

Lemma p63 : 2 ^ 63 = 9223372036854775808. Proof. reflexivity. Qed.
Lemma p64 : 2 ^ 64 = 18446744073709551616. Proof. reflexivity. Qed.
Lemma p256 : 256 ^ N.of_nat 8 = 2 ^ 64. Proof. reflexivity. Qed.
Lemma z64 : (2 ^ 64 = 18446744073709551616)%Z. Proof. reflexivity. Qed.

Lemma lua_int_small u : u < 2 ^ 63 -> lua_int u = Z.of_N u.
Proof. intros H. unfold lua_int. by rewrite (proj2 (N.ltb_lt _ _) H). Qed.
Lemma lua_int_big u : 2 ^ 63 <= u -> u < 2 ^ 64 -> (lua_int u < 0)%Z.
Proof. intros H H2. unfold lua_int. rewrite (proj2 (N.ltb_ge _ _) H), z64. rewrite p64 in H2. lia. Qed.
Lemma lua_int_mod u : u < 2 ^ 64 -> (lua_int u mod 2 ^ 64 = Z.of_N u)%Z.
Proof.
  intros H. rewrite p64 in H. unfold lua_int. rewrite z64. destruct (N.ltb_spec u (2 ^ 63)).
  - apply Z.mod_small. lia.
  - symmetry. apply (Z.mod_unique_pos _ _ (-1)); lia.
Qed.
Lemma pack_int u : u < 2 ^ 64 -> pack (lua_int u) = le_bytes 8 u.
Proof. intros H. unfold pack. by rewrite lua_int_mod, N2Z.id. Qed.
Lemma zmod_lt z : Z.to_N (z mod 2 ^ 64) < 2 ^ 64.
Proof. pose proof (Z.mod_pos_bound z (2 ^ 64) eq_refl). rewrite p64. rewrite z64 in *. lia. Qed.
Lemma pack_add a b : pack (lua_add a b) = le_bytes 8 (Z.to_N ((a + b) mod 2 ^ 64)).
Proof. unfold lua_add. apply pack_int, zmod_lt. Qed.
Lemma pack_add_small a b : (0 <= a + b < 2 ^ 64)%Z ->
  pack (lua_add a b) = le_bytes 8 (Z.to_N (a + b)).
Proof. intros H. by rewrite pack_add, Z.mod_small. Qed.

Lemma value_lt b : Forall is_byte b -> le_value (take 8 b) < 2 ^ 64.
Proof.
  intros H. pose proof (le_value_bound (take 8 b) (Forall_take _ _ _ H)) as L.
  eapply N.lt_le_trans; [exact L|]. rewrite <- p256. apply N.pow_le_mono_r; [lia|].
  pose proof (take_length b 8). unfold len in *. lia.
Qed.

Lemma take_le_bytes u b : take 8 (le_bytes 8 u ++ b) = le_bytes 8 u.
Proof. rewrite take_app_alt; [done|]. by rewrite le_bytes_length. Qed.
Lemma drop_le_bytes u b : drop 8 (le_bytes 8 u ++ b) = b.
Proof. rewrite drop_app_alt; [done|]. by rewrite le_bytes_length. Qed.
Lemma value_le_bytes u : u < 2 ^ 64 -> le_value (le_bytes 8 u) = u.
Proof. intros H. apply le_value_bytes. by rewrite p256. Qed.
Lemma take_self u : take 8 (le_bytes 8 u) = le_bytes 8 u.
Proof. apply take_ge. by rewrite le_bytes_length. Qed.
Lemma le_bytes_take b : Forall is_byte b -> (8 <= length b)%nat ->
  le_bytes 8 (le_value (take 8 b)) = take 8 b.
Proof.
  intros H L. pose proof (le_bytes_value (take 8 b) (Forall_take _ _ _ H)) as E.
  rewrite take_length, Nat.min_l in E by done. exact E.
Qed.

Lemma account_inj a b : account_key a = account_key b -> a = b.
Proof. unfold account_key. apply app_inv_head. Qed.

Local Opaque pack le_bytes.

Section pay.
  Context (parse : bytes -> bool) (verify : bytes -> bytes -> bytes -> bool)
    (sha256 : bytes -> bytes).
  Notation pay := (pay parse verify sha256).
  Notation pay_run := (pay_run parse verify sha256).
  Notation authorised := (authorised parse verify sha256).
  Notation signed from sig msg := (check_sig parse verify sha256 [LStr from; LStr sig; LStr msg]).

  (** ** The contract in one piece *)

  Definition direct (db : bytes -> bytes) (p : bytes) : list bytes * run_result :=
    if (length p <? 144)%nat then ([], Failed ExecError)
    else
      let from := payer p in let to := payee p in
      let v := unpack (drop 64 p) in let q := unpack (drop 72 p) in
      match unpack_account (db (account_key from)) with
      | None => ([account_key from], Failed ExecError)
      | Some (fb, fs) =>
          if negb (signed from (signature p) (to ++ pack v ++ pack q))
             || (q <? fs)%Z || (fb <? v)%Z then ([account_key from], Failed ExecError)
          else if (0 <? v)%Z
          then match unpack_account (db (account_key to)) with
               | None => ([account_key from; account_key to], Failed ExecError)
               | Some (tb, ts) =>
                   ([account_key from; account_key to],
                    Updates ((if bool_decide (from = to) then []
                              else [(account_key from, pack (lua_add fb (- v)) ++ pack (lua_add q 1))])
                             ++ [(account_key to, pack (lua_add tb v) ++ pack ts)]))
               end
          else ([account_key from], Updates [(account_key from, pack fb ++ pack (lua_add q 1))])
      end.

  Lemma walk_one k v : walk 3 [(LStr k, LStr v)] 0 [] = WResult (Updates [(k, v)]).
  Proof. simpl. by rewrite bool_decide_true. Qed.
  Lemma walk_two k v l w : k <> l ->
    walk 3 [(LStr k, LStr v); (LStr l, LStr w)] 0 [] = WResult (Updates [(k, v); (l, w)]).
  Proof.
    intros H. simpl. rewrite (bool_decide_true (k = k)) by done. simpl.
    rewrite (bool_decide_false (k = l)) by done. rewrite (bool_decide_true (l = l)) by done. simpl.
    unfold emplace. simpl. rewrite (bool_decide_false (k = l)) by done. done.
  Qed.

  Lemma pay_direct db p : pay_run db p = direct db p.
  Proof.
    unfold pay_run, direct, schedule. simpl. fold (payer p) (payee p) (signature p).
    destruct (length p <? 144)%nat; [done|]. simpl. unfold schedule. simpl.
    destruct (unpack_account (db (account_key (payer p)))) as [[fb fs]|]; [|done].
    destruct (signed _ _ _); simpl; [|done].
    destruct (_ <? fs)%Z; simpl; [done|]. destruct (fb <? _)%Z; [done|].
    destruct (0 <? _)%Z.
    - simpl. unfold schedule. simpl.
      destruct (unpack_account (db (account_key (payee p)))) as [[tb ts]|]; [|done].
      destruct (decide (payer p = payee p)) as [E|E].
      + rewrite bool_decide_true by done. unfold epilogue. by rewrite walk_one.
      + rewrite bool_decide_false by done. unfold epilogue.
        rewrite walk_two by (intros H; by apply E, account_inj). done.
    - unfold epilogue. by rewrite walk_one.
  Qed.

  Lemma pay_runs db p :
    run (pay_resume parse verify sha256) 3 (Some PStart) p true
      (map (fun k => (Value (db k), true)) (fst (pay_run db p))) =
    (Finished, map ALock (fst (pay_run db p)) ++ [AReport (pay db p)]).
  Proof.
    unfold LuaPayModel.pay. rewrite pay_direct. unfold direct.
    unfold run, schedule. simpl. fold (payer p) (payee p) (signature p).
    destruct (length p <? 144)%nat; [done|]. simpl.
    destruct (unpack_account (db (account_key (payer p)))) as [[fb fs]|] eqn:E1;
      [|simpl; unfold schedule; simpl; by rewrite E1].
    destruct (signed _ _ _) eqn:E2; simpl; [|unfold schedule; simpl; by rewrite E1, E2].
    destruct (_ <? fs)%Z eqn:E3; simpl; [unfold schedule; simpl; by rewrite E1, E2, E3|].
    destruct (fb <? _)%Z eqn:E4; [simpl; unfold schedule; simpl; by rewrite E1, E2, E3, E4|].
    destruct (0 <? _)%Z eqn:E5.
    - destruct (unpack_account (db (account_key (payee p)))) as [[tb ts]|] eqn:E6;
        simpl; unfold schedule; simpl; rewrite E1, E2, E3, E4, E5; simpl; unfold schedule; simpl;
        rewrite E6; simpl; [|done].
      destruct (decide (payer p = payee p)) as [E|E].
      + rewrite bool_decide_true by done. unfold epilogue. by rewrite walk_one.
      + rewrite bool_decide_false by done. unfold epilogue.
        rewrite walk_two by (intros H; by apply E, account_inj). done.
    - simpl. unfold schedule. simpl. rewrite E1, E2, E3, E4, E5.
      unfold epilogue.
      cbn [negb]. cbv beta iota. rewrite walk_one. done.
  Qed.

  (** ** Reading *)

  Lemma sound_read db a : sound db a ->
    unpack_account (db (account a)) = Some (Z.of_N (balance db a), Z.of_N (sequence db a)).
  Proof.
    unfold unpack_account, balance, sequence. intros [E|(L & B & H1 & H2)].
    - by rewrite E.
    - rewrite L. simpl. unfold unpack. unfold balance, sequence in *.
      by rewrite !lua_int_small.
  Qed.

  Lemma request_signed p : request p ->
    signed (payer p) (signature p) (payee p ++ pack (unpack (drop 64 p)) ++ pack (unpack (drop 72 p)))
      = parse (payer p) && verify (payer p) (signature p) (sha256 (signed_part p)).
  Proof.
    intros [B L]. unfold unpack.
    rewrite !pack_int by (apply value_lt, Forall_drop, B).
    rewrite !le_bytes_take by (first [apply Forall_drop, B|rewrite drop_length; lia]).
    assert (E : payee p ++ take 8 (drop 64 p) ++ take 8 (drop 72 p) = signed_part p).
    { unfold payee, signed_part.
      replace (drop 64 p) with (drop 32 (drop 32 p)) by (by rewrite drop_drop).
      replace (drop 72 p) with (drop 8 (drop 32 (drop 32 p))) by (by rewrite !drop_drop).
      generalize (drop 32 p). intros l.
      rewrite take_take_drop. replace 48%nat with (32 + 16)%nat by lia.
      by rewrite take_take_drop. }
    rewrite E. unfold check_sig. simpl.
    assert (L1 : length (payer p) = 32%nat) by (unfold payer; rewrite take_length; lia).
    assert (L2 : length (signature p) = 64%nat)
      by (unfold signature; rewrite take_length, drop_length; lia).
    rewrite L1, L2. simpl. by destruct (parse (payer p)).
  Qed.

  Lemma value_int p : request p -> unpack (drop 64 p) = lua_int (value p).
  Proof. done. Qed.
  Lemma request_value p : request p -> value p < 2 ^ 64.
  Proof. intros [B _]. apply value_lt, Forall_drop, B. Qed.
  Lemma request_seq p : request p -> seq_no p < 2 ^ 64.
  Proof. intros [B _]. apply value_lt, Forall_drop, B. Qed.

  (** What a payment does, without any assumption about the accounts. *)
  Lemma pay_inv db p u : request p -> pay db p = Updates u ->
    authorised p /\ exists fb fs,
      unpack_account (db (account (payer p))) = Some (fb, fs) /\
      (fs <= lua_int (seq_no p))%Z /\ (lua_int (value p) <= fb)%Z /\
      ((0 < lua_int (value p))%Z /\ (exists tb ts,
         unpack_account (db (account (payee p))) = Some (tb, ts) /\
         u = (if bool_decide (payer p = payee p) then []
              else [(account (payer p), pack (lua_add fb (- lua_int (value p))) ++
                       pack (lua_add (lua_int (seq_no p)) 1))])
             ++ [(account (payee p), pack (lua_add tb (lua_int (value p))) ++ pack ts)]) \/
       (lua_int (value p) <= 0)%Z /\
       u = [(account (payer p), pack fb ++ pack (lua_add (lua_int (seq_no p)) 1))]).
  Proof.
    intros R. pose proof (proj2 R) as L. unfold LuaPayModel.pay. rewrite pay_direct. unfold direct.
    rewrite (proj2 (Nat.ltb_ge _ _) L). cbv zeta. rewrite (request_signed p R).
    change (unpack (drop 64 p)) with (lua_int (value p)).
    change (unpack (drop 72 p)) with (lua_int (seq_no p)).
    change account_key with account.
    destruct (unpack_account (db (account (payer p)))) as [[fb fs]|]; [|done].
    destruct (parse (payer p)) eqn:E1; [|done]. simpl.
    destruct (verify _ _ _) eqn:E2; [|done]. simpl.
    destruct (Z.ltb_spec (lua_int (seq_no p)) fs); [done|]. simpl.
    destruct (Z.ltb_spec fb (lua_int (value p))); [done|]. simpl. intros H1.
    split; [done|]. exists fb, fs. split_and!; [done..|].
    destruct (Z.ltb_spec 0 (lua_int (value p))).
    - left. split; [done|].
      destruct (unpack_account (db (account (payee p)))) as [[tb ts]|]; [|done].
      exists tb, ts. split; [done|]. by injection H1 as <-.
    - right. split; [done|]. by injection H1 as <-.
  Qed.

  (** ** Exactly the proper payments succeed *)

  Lemma pay_iff db p : request p -> sound db (payer p) -> sound db (payee p) ->
    (exists u, pay db p = Updates u) <->
    authorised p /\ sequence db (payer p) <= seq_no p /\ seq_no p < 2 ^ 63 /\
    (value p <= balance db (payer p) \/ 2 ^ 63 <= value p).
  Proof.
    intros R S1 S2. pose proof (sound_read _ _ S1) as E1. pose proof (sound_read _ _ S2) as E2.
    pose proof (request_value p R) as Hv. pose proof (request_seq p R) as Hq.
    assert (Bf : balance db (payer p) < 2 ^ 63).
    { destruct S1 as [S1|(_ & _ & S1 & _)]; [|done]. unfold balance. by rewrite S1. }
    split.
    - intros [u Hu]. apply pay_inv in Hu as (A & fb & fs & F & Q & V & _); [|done].
      rewrite E1 in F. injection F as <- <-. split; [done|].
      destruct (N.lt_ge_cases (seq_no p) (2 ^ 63)) as [Lq|Lq];
        [rewrite lua_int_small in Q by done|pose proof (lua_int_big _ Lq Hq); lia].
      split_and!; [lia|done|]. destruct (N.lt_ge_cases (value p) (2 ^ 63)) as [Lv|Lv]; [left|by right].
      rewrite lua_int_small in V by done. lia.
    - intros ((A1 & A2) & Q & Lq & V). unfold LuaPayModel.pay. rewrite pay_direct. unfold direct.
      rewrite (proj2 (Nat.ltb_ge _ _) (proj2 R)). cbv zeta. rewrite (request_signed p R).
      change (unpack (drop 64 p)) with (lua_int (value p)).
      change (unpack (drop 72 p)) with (lua_int (seq_no p)).
      change account_key with account. rewrite E1, A1, A2, E2. simpl.
      rewrite (lua_int_small (seq_no p)) by done.
      rewrite (proj2 (Z.ltb_ge _ _)) by lia. simpl.
      assert (lua_int (value p) <= Z.of_N (balance db (payer p)))%Z as V'.
      { destruct (N.lt_ge_cases (value p) (2 ^ 63)) as [Lv|Lv].
        - rewrite lua_int_small by done. destruct V as [V|V]; lia.
        - pose proof (lua_int_big _ Lv Hv). lia. }
      rewrite (proj2 (Z.ltb_ge _ _)) by lia.
      destruct (0 <? lua_int (value p))%Z; simpl; eauto.
  Qed.

  (** ** What a payment does *)

  Lemma store_in db u k v : find (fun e => bool_decide (fst e = k)) u = Some (k, v) ->
    store db u k = v.
  Proof. intros H. unfold store. by rewrite H. Qed.

  Lemma db_balance db a b s : db (account a) = le_bytes 8 b ++ le_bytes 8 s -> b < 2 ^ 64 ->
    balance db a = b.
  Proof. intros H L. unfold balance. rewrite H, take_le_bytes. by apply value_le_bytes. Qed.
  Lemma db_sequence db a b s : db (account a) = le_bytes 8 b ++ le_bytes 8 s -> s < 2 ^ 64 ->
    sequence db a = s.
  Proof. intros H L. unfold sequence. rewrite H, drop_le_bytes, take_self. by apply value_le_bytes. Qed.

  Lemma sound_lt db a : sound db a -> balance db a < 2 ^ 63 /\ sequence db a < 2 ^ 63.
  Proof. unfold balance, sequence. intros [->|(_ & _ & ? & ?)]; done. Qed.

  Lemma account_inj' a b : account a = account b -> a = b.
  Proof. apply account_inj. Qed.

  (** The entries written, for accounts in good order. *)
  Lemma pay_writes db p u : request p -> sound db (payer p) -> sound db (payee p) ->
    pay db p = Updates u ->
    let b := balance db (payer p) in let q := seq_no p in let v := value p in
    (0 < v < 2 ^ 63 /\ v <= b /\
     u = (if bool_decide (payer p = payee p) then []
          else [(account (payer p), le_bytes 8 (b - v) ++ le_bytes 8 (q + 1))]) ++
         [(account (payee p), le_bytes 8 (balance db (payee p) + v) ++
             le_bytes 8 (sequence db (payee p)))]) \/
    ((v = 0 \/ 2 ^ 63 <= v) /\ u = [(account (payer p), le_bytes 8 b ++ le_bytes 8 (q + 1))]).
  Proof.
    intros R S1 S2 Hu b q v.
    destruct (proj1 (pay_iff db p R S1 S2) (ex_intro _ u Hu)) as (_ & Hs & Hq & Hv).
    apply pay_inv in Hu as (_ & fb & fs & F & Q & V & H); [|done].
    pose proof (sound_read _ _ S1) as E1. pose proof (sound_read _ _ S2) as E2.
    pose proof (request_value p R) as Lv.
    destruct (sound_lt _ _ S1) as [Lb Ls]. destruct (sound_lt _ _ S2) as [Lb2 Ls2].
    rewrite E1 in F. injection F as <- <-.
    assert (Eq : pack (lua_add (lua_int (seq_no p)) 1) = le_bytes 8 (q + 1)).
    { rewrite lua_int_small by done. rewrite p63 in Hq.
      rewrite pack_add_small by (rewrite z64; lia). f_equal. subst q. lia. }
    assert (Ep : forall n, n < 2 ^ 63 -> pack (Z.of_N n) = le_bytes 8 n).
    { intros n Hn. rewrite <- (lua_int_small n Hn). apply pack_int. rewrite p64, p63 in *. lia. }
    destruct (N.lt_ge_cases (value p) (2 ^ 63)) as [Hl|Hl].
    - rewrite (lua_int_small (value p) Hl) in H, V. subst v.
      assert (Hvb : value p <= b) by (subst b; lia).
      destruct H as [[H0 (tb & ts & F2 & ->)]|[H0 ->]].
      + left. split_and!; [lia|done..|]. rewrite E2 in F2. injection F2 as <- <-.
        rewrite Eq, (Ep (sequence db (payee p))) by done.
        rewrite !p63 in *. fold b. rewrite !pack_add_small by (rewrite z64; lia).
        replace (Z.to_N (Z.of_N b + - Z.of_N (value p))) with (b - value p) by lia.
        replace (Z.to_N (Z.of_N (balance db (payee p)) + Z.of_N (value p)))
          with (balance db (payee p) + value p) by lia.
        done.
      + right. split; [left; lia|]. rewrite Eq. fold b. by rewrite (Ep b).
    - right. split; [by right|]. pose proof (lua_int_big _ Hl Lv).
      destruct H as [[H1 _]|[H1 ->]]; [lia|]. rewrite Eq. fold b. by rewrite (Ep b).
  Qed.

  Lemma bd_acc a b : bool_decide (account a = account b) = bool_decide (a = b).
  Proof. apply bool_decide_ext. split; [apply account_inj'|by intros ->]. Qed.

  Lemma pay_effect db p u : request p -> sound db (payer p) -> sound db (payee p) ->
    pay db p = Updates u -> payer p <> payee p -> 0 < value p < 2 ^ 63 ->
    balance (store db u) (payer p) + value p = balance db (payer p) /\
    balance (store db u) (payee p) = balance db (payee p) + value p /\
    sequence (store db u) (payer p) = seq_no p + 1 /\
    sequence (store db u) (payee p) = sequence db (payee p) /\
    (forall k, k <> account (payer p) -> k <> account (payee p) -> store db u k = db k).
  Proof.
    intros R S1 S2 Hu Ne Hv.
    destruct (proj1 (pay_iff db p R S1 S2) (ex_intro _ u Hu)) as (_ & Hs & Hq & _).
    destruct (pay_writes db p u R S1 S2 Hu) as [(_ & Hb & ->)|[[H|H] _]]; [|lia|lia].
    destruct (sound_lt _ _ S1) as [Lb Ls]. destruct (sound_lt _ _ S2) as [Lb2 Ls2].
    rewrite bool_decide_false by done. cbn [app].
    match goal with |- context [store db ?x] => set (u := x) end.
    assert (E1 : store db u (account (payer p)) =
      le_bytes 8 (balance db (payer p) - value p) ++ le_bytes 8 (seq_no p + 1)).
    { apply store_in. unfold u. cbn [find fst snd]. by rewrite bool_decide_true. }
    assert (E2 : store db u (account (payee p)) =
      le_bytes 8 (balance db (payee p) + value p) ++ le_bytes 8 (sequence db (payee p))).
    { apply store_in. unfold u. cbn [find fst snd]. rewrite bd_acc, bool_decide_false by done.
      by rewrite bool_decide_true. }
    rewrite p63 in *.
    rewrite (db_balance _ _ _ _ E1), (db_balance _ _ _ _ E2), (db_sequence _ _ _ _ E1),
      (db_sequence _ _ _ _ E2) by (rewrite p64; lia).
    split_and!; [lia|done..|]. intros k K1 K2. unfold store, u. cbn [find fst snd].
    by rewrite !bool_decide_false by congruence.
  Qed.

  (** Paying oneself makes money and may be repeated. *)
  Lemma pay_self db p u : request p -> sound db (payer p) ->
    pay db p = Updates u -> payer p = payee p -> 0 < value p < 2 ^ 63 ->
    balance (store db u) (payer p) = balance db (payer p) + value p /\
    sequence (store db u) (payer p) = sequence db (payer p).
  Proof.
    intros R S1 Hu E Hv. assert (S2 : sound db (payee p)) by by rewrite <- E.
    destruct (pay_writes db p u R S1 S2 Hu) as [(_ & Hb & ->)|[[H|H] _]]; [|lia|lia].
    destruct (sound_lt _ _ S1) as [Lb Ls].
    rewrite bool_decide_true by done. cbn [app]. rewrite <- E.
    match goal with |- context [store db ?x] => set (u := x) end.
    assert (E1 : store db u (account (payer p)) =
      le_bytes 8 (balance db (payer p) + value p) ++ le_bytes 8 (sequence db (payer p))).
    { apply store_in. unfold u. cbn [find fst snd]. by rewrite bool_decide_true. }
    rewrite p63 in *.
    rewrite (db_balance _ _ _ _ E1), (db_sequence _ _ _ _ E1) by (rewrite p64; lia). done.
  Qed.

  (** A value that Lua takes for negative, or none: nothing is paid. *)
  Lemma pay_nothing db p u : request p -> sound db (payer p) -> sound db (payee p) ->
    pay db p = Updates u -> value p = 0 \/ 2 ^ 63 <= value p ->
    sequence (store db u) (payer p) = seq_no p + 1 /\
    (forall a, balance (store db u) a = balance db a) /\
    (forall k, k <> account (payer p) -> store db u k = db k).
  Proof.
    intros R S1 S2 Hu Hv.
    destruct (proj1 (pay_iff db p R S1 S2) (ex_intro _ u Hu)) as (_ & Hs & Hq & _).
    destruct (pay_writes db p u R S1 S2 Hu) as [(H & _)|[_ ->]]; [lia|].
    destruct (sound_lt _ _ S1) as [Lb Ls].
    match goal with |- context [store db ?x] => set (u := x) end.
    assert (E1 : store db u (account (payer p)) =
      le_bytes 8 (balance db (payer p)) ++ le_bytes 8 (seq_no p + 1)).
    { apply store_in. unfold u. cbn [find fst snd]. by rewrite bool_decide_true. }
    assert (E2 : forall k, k <> account (payer p) -> store db u k = db k).
    { intros k K. unfold store, u. cbn [find fst snd]. by rewrite bool_decide_false by congruence. }
    rewrite p63 in *. split_and!; [|intros a|done].
    - rewrite (db_sequence _ _ _ _ E1); [done|]. rewrite p64. lia.
    - destruct (decide (a = payer p)) as [->|Ha].
      + rewrite (db_balance _ _ _ _ E1); [done|]. rewrite p64. lia.
      + unfold balance. rewrite E2; [done|]. intros ?%account_inj'. done.
  Qed.
End pay.
