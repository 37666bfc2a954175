(** Proofs about addresses. *)
From stdpp Require Import base list option.
From Coq Require Import NArith Lia Bool.
From Verif Require Import Base AddressModel AddressSpec AddressCode AddressBits.
Open Scope N_scope.

(** * The checksum *)

Lemma turn_small c : c < 2 ^ 25 -> turn c = N.shiftl c 5.
Proof.
  intros H. unfold turn, polymod_step. rewrite !add_if_xor.
  assert (N.shiftr c 25 = 0) as ->.
  { rewrite N.shiftr_div_pow2. by apply N.div_small. }
  rewrite !N.bits_0, !N.lxor_0_r. f_equal. change 0x1ffffff with (N.ones 25).
  rewrite N.land_ones. by apply N.mod_small.
Qed.

Fixpoint low (n : nat) (m : N) : list N :=
  match n with
  | O => []
  | S k => N.land m 31 :: low k (N.shiftr m 5)
  end.

Lemma sum_low n m : (n <= 6)%nat -> m < 2 ^ (5 * N.of_nat n) -> sum 0 (low n m) = m.
Proof.
  revert m. induction n as [|n IH]; intros m Hn Hm; cbn [low sum turns].
  - change (2 ^ (5 * N.of_nat 0)) with 1 in Hm. lia.
  - rewrite sum_S.
    assert (N.shiftr m 5 < 2 ^ (5 * N.of_nat n)) as L.
    { rewrite N.shiftr_div_pow2. apply N.div_lt_upper_bound; [by vm_compute|].
      rewrite <- N.pow_add_r. by replace (5 + 5 * N.of_nat n) with (5 * N.of_nat (S n)) by lia. }
    rewrite IH by (done || lia). rewrite turn_small.
    2: { eapply N.lt_le_trans; [exact L|]. apply N.pow_le_mono_r; lia. }
    apply N.bits_inj. intros i. rewrite N.lxor_spec, N.land_spec.
    change 31 with (N.ones 5). destruct (N.lt_ge_cases i 5) as [I|I].
    + rewrite N.shiftl_spec_low, N.ones_spec_low by done. by rewrite andb_true_r, xorb_false_r.
    + rewrite N.shiftl_spec_high', N.shiftr_spec', N.ones_spec_high by done.
      rewrite andb_false_r, xorb_false_l. f_equal. lia.
Qed.

Lemma checksum_rev hrp values :
  rev (create_checksum hrp values) =
  low 6 (N.lxor (polymod (expand_hrp hrp ++ values ++ repeat 0 6)) 1).
Proof.
  unfold create_checksum. cbv zeta. cbn [map rev app low].
  rewrite !N.shiftr_shiftr.
  change (5 * (5 - 0)) with 25. change (5 * (5 - 1)) with 20. change (5 * (5 - 2)) with 15.
  change (5 * (5 - 3)) with 10. change (5 * (5 - 4)) with 5. change (5 * (5 - 5)) with 0.
  rewrite N.shiftr_0_r. reflexivity.
Qed.

Lemma checksum_digits hrp values : digits 5 (create_checksum hrp values).
Proof.
  unfold create_checksum, digits. cbv zeta. cbn [map].
  repeat (apply list.Forall_cons; split;
    [change 31 with (N.ones 5); rewrite N.land_ones; apply N.mod_lt; by vm_compute|]).
  by apply list.Forall_nil.
Qed.

Lemma checksum_right hrp values :
  polymod (expand_hrp hrp ++ values ++ create_checksum hrp values) = 1.
Proof.
  pose proof (checksum_rev hrp values) as R.
  assert (length (create_checksum hrp values) = 6%nat) as L by done.
  revert R L. generalize (create_checksum hrp values). intros ck R L.
  rewrite app_assoc. rewrite app_assoc in R. revert R. unfold polymod.
  rewrite !(fold_left_app _ (expand_hrp hrp ++ values)).
  generalize (fold_left polymod_step (expand_hrp hrp ++ values) 1). intros c.
  rewrite !(polymod_from_sum _ c), L. cbn [length repeat]. intros ->.
  replace (sum 0 (rev [0; 0; 0; 0; 0; 0])) with 0 by (by vm_compute).
  rewrite N.lxor_0_r, sum_low; [|done|].
  - by rewrite <- N.lxor_assoc, N.lxor_nilpotent.
  - change (2 ^ (5 * N.of_nat 6)) with (2 ^ 30). apply xor_bound; [|by vm_compute].
    cbn [turns]. apply turn_bound.
Qed.

(** * Characters *)

Definition char_of (v : N) : N := default 0 (charset !! N.to_nat v).

Definition char_ok (v : N) : bool :=
  let c := char_of v in
  match charset !! N.to_nat v, symbol c, symbol (to_upper c) with
  | Some _, Some v1, Some v2 => (v1 =? v) && (v2 =? v)
  | _, _, _ => false
  end && negb (is_upper c) && negb (is_lower (to_upper c)) && (33 <=? c) && (c <=? 126)
  && negb (c =? 49) && negb (to_upper c =? 49) && (33 <=? to_upper c) && (to_upper c <=? 126)
  && (to_lower c =? c).

Lemma below_32 (P : N -> bool) : forallb (fun n => P (N.of_nat n)) (seq 0 32) = true ->
  forall v, v < 2 ^ 5 -> P v = true.
Proof.
  intros F v Hv. rewrite forallb_forall in F. specialize (F (N.to_nat v)).
  rewrite N2Nat.id in F. apply F, in_seq. change (2 ^ 5) with 32 in Hv. lia.
Qed.

Lemma chars_ok v : v < 2 ^ 5 -> char_ok v = true.
Proof. apply (below_32 char_ok). by vm_compute. Qed.

Lemma char_spec v : v < 2 ^ 5 ->
  charset !! N.to_nat v = Some (char_of v) /\ symbol (char_of v) = Some v /\
  symbol (to_upper (char_of v)) = Some v /\
  is_upper (char_of v) = false /\ is_lower (to_upper (char_of v)) = false /\
  33 <= char_of v <= 126 /\ 33 <= to_upper (char_of v) <= 126 /\
  char_of v <> 49 /\ to_upper (char_of v) <> 49 /\ to_lower (char_of v) = char_of v.
Proof.
  intros Hv. pose proof (chars_ok v Hv) as C. unfold char_ok in C. cbv zeta in C.
  rewrite !andb_true_iff, !negb_true_iff in C.
  destruct C as [[[[[[[[[C1 C2] C3] C4] C5] C6] C7] C8] C9] C10].
  unfold char_of in *. destruct (charset !! N.to_nat v) as [c|] eqn:E; [|done]. cbn [default] in *.
  cbn in C1 |- *. change (id c) with c in *.
  destruct (symbol c) as [v1|]; [|done]. destruct (symbol (to_upper c)) as [v2|]; [|done].
  apply andb_true_iff in C1 as [X1 X2]. apply N.eqb_eq in X1, X2. subst v1. rewrite X2.
  apply N.leb_le in C4, C5, C8, C9. apply N.eqb_neq in C6, C7. apply N.eqb_eq in C10.
  split_and!; done || (by f_equal) || lia.
Qed.

Definition sym_ok (c : N) : bool :=
  match symbol c with
  | Some v => (v <? 32) && (char_of v =? to_lower c)
  | None => true
  end.

Lemma symbol_spec c v : symbol c = Some v -> v < 2 ^ 5 /\ char_of v = to_lower c.
Proof.
  assert (forallb (fun n => sym_ok (N.of_nat n)) (seq 0 128) = true) as F by (by vm_compute).
  intros H. rewrite forallb_forall in F. specialize (F (N.to_nat c)).
  rewrite N2Nat.id in F. unfold sym_ok in F. rewrite H in F.
  assert (N.to_nat c < 128)%nat as L.
  { unfold symbol in H. destruct (charset_rev !! N.to_nat c) eqn:E; [|done].
    apply lookup_lt_Some in E. exact E. }
  specialize (F ltac:(apply in_seq; lia)). apply andb_true_iff in F as [F1 F2].
  apply N.ltb_lt in F1. apply N.eqb_eq in F2. done.
Qed.

Lemma char_of_inj v w : v < 2 ^ 5 -> w < 2 ^ 5 -> char_of v = char_of w -> v = w.
Proof.
  intros Hv Hw E. destruct (char_spec v Hv) as (_ & S1 & _), (char_spec w Hw) as (_ & S2 & _).
  rewrite E, S2 in S1. by injection S1.
Qed.

Lemma lower_case_eq c : lower_case c = to_lower c.
Proof.
  unfold lower_case, to_lower. destruct (N.leb_spec 65 c), (N.leb_spec c 90); cbn [andb];
    destruct (decide (65 <= c <= 90)); lia.
Qed.

Lemma mapM_symbol s values : mapM symbol s = Some values ->
  digits 5 values /\ lower s = map char_of values.
Proof.
  revert values. induction s as [|c s IH]; intros values.
  - intros [= <-]. split; [by apply list.Forall_nil|done].
  - cbn [mapM]. destruct (symbol c) as [v|] eqn:E; [|done]. cbn.
    destruct (mapM symbol s) as [vs|]; [|done]. cbn. intros [= <-].
    apply symbol_spec in E as [E1 E2]. destruct (IH vs eq_refl) as [I1 I2].
    split; [apply list.Forall_cons; by split|]. cbn. by rewrite E2, <- I2.
Qed.

Lemma symbols_back (f : N -> N) values :
  (forall v, v < 2 ^ 5 -> symbol (f (char_of v)) = Some v) ->
  digits 5 values -> mapM symbol (map f (map char_of values)) = Some values.
Proof.
  intros Hf D. induction D as [|v l Hv _ IH]; [done|]. cbn. rewrite Hf by done. cbn.
  rewrite IH. done.
Qed.

(** * rfind *)

Lemma rfind1_none s : ~ In 49 s -> rfind1 s = None.
Proof.
  induction s as [|c s IH]; cbn; [done|]. intros H. rewrite IH by (intros Q; apply H; by right).
  destruct (N.eqb_spec c 49); [|done]. exfalso. apply H. by left.
Qed.

Lemma rfind1_app h t : ~ In 49 t -> rfind1 (h ++ 49 :: t) = Some (length h).
Proof.
  intros H. induction h as [|c h IH]; cbn; [by rewrite rfind1_none|]. by rewrite IH.
Qed.

Lemma rfind1_some s p : rfind1 s = Some p -> s = take p s ++ 49 :: drop (S p) s.
Proof.
  revert p. induction s as [|c s IH]; cbn [rfind1]; intros p; [done|].
  destruct (rfind1 s) as [q|]; [intros [= <-]; cbn; by rewrite <- IH|].
  destruct (N.eqb_spec c 49) as [->|]; [|done]. by intros [= <-].
Qed.

(** * Reading *)

Definition usd1 : list N := [117; 115; 100; 49].

(** What a decoded text is: its symbols, with a right checksum. *)
Lemma decode_usd s enc : decode s = (bech32_hrp, enc) ->
  exists values, lower s = usd1 ++ map char_of values /\ digits 5 values /\
    (6 <= length values)%nat /\ polymod (expand_hrp bech32_hrp ++ values) = 1 /\
    enc = take (length values - 6) values.
Proof.
  unfold decode. destruct (existsb _ s); [done|]. destruct (_ && _); [done|].
  destruct (rfind1 s) as [p|] eqn:R; [|done].
  destruct (_ || _) eqn:B; [done|]. apply orb_false_iff in B as [B B3].
  apply Nat.ltb_ge in B3.
  destruct (mapM symbol (drop (S p) s)) as [values|] eqn:M; [|done].
  destruct (verify_checksum _ values) eqn:V; [|done]. intros [= H1 H2].
  apply rfind1_some in R. pose proof (mapM_length _ _ _ M) as L.
  apply mapM_symbol in M as [D M]. exists values.
  assert (lower (take p s) = bech32_hrp) as H.
  { rewrite <- H1. unfold lower. apply map_ext. intros c. symmetry. apply lower_case_eq. }
  split; [|split; [done|split; [|split; [|done]]]].
  - rewrite R. unfold lower. rewrite map_app. fold (lower (take p s)). rewrite H.
    cbn [map]. fold (lower (drop (S p) s)). by rewrite M.
  - rewrite drop_length in L. lia.
  - rewrite H1 in V. unfold verify_checksum in V. by apply N.eqb_eq in V.
Qed.

(** Every text of symbols with a right checksum is read, in lower and in upper case. *)
Lemma decode_back (f : N -> N) values :
  (forall v, v < 2 ^ 5 -> symbol (f (char_of v)) = Some v) ->
  (forall c, lower_case (f c) = lower_case c) ->
  f 49 = 49 ->
  existsb (fun c => negb (is_lower c) && negb (is_upper c) && ((c <? 33) || (126 <? c)))
    (map f (usd1 ++ map char_of values)) = false ->
  existsb is_lower (map f (usd1 ++ map char_of values)) &&
    existsb is_upper (map f (usd1 ++ map char_of values)) = false ->
  ~ In 49 (map f (map char_of values)) ->
  digits 5 values -> (6 <= length values <= 86)%nat ->
  polymod (expand_hrp bech32_hrp ++ values) = 1 ->
  decode (map f (usd1 ++ map char_of values)) = (bech32_hrp, take (length values - 6) values).
Proof.
  intros F1 F2 F3 E1 E2 N1 D L P. unfold decode. rewrite E1, E2.
  set (h := [f 117; f 115; f 100]).
  assert (map f (usd1 ++ map char_of values) = h ++ 49 :: map f (map char_of values)) as ->.
  { cbn. by rewrite F3. }
  rewrite rfind1_app by done. change (length h) with 3%nat.
  rewrite app_length. cbn [length]. rewrite !map_length. change (length h) with 3%nat.
  destruct (Nat.ltb_spec 90 (3 + S (length values))); [lia|].
  change (3 =? 0)%nat with false.
  destruct (Nat.ltb_spec (3 + S (length values)) (3 + 7)); [lia|]. cbn [orb].
  change (drop 4 (h ++ 49 :: map f (map char_of values))) with (map f (map char_of values)).
  rewrite symbols_back by done.
  change (take 3 (h ++ 49 :: map f (map char_of values))) with h.
  assert (map lower_case h = bech32_hrp) as ->.
  { unfold h. cbn [map]. rewrite !F2. reflexivity. }
  unfold verify_checksum. rewrite P. done.
Qed.

(** * Writing *)

Lemma key_digits k : is_key k -> digits 8 (0 :: k).
Proof. intros [_ F]. apply list.Forall_cons. split; [by vm_compute|exact F]. Qed.

Lemma mapM_charset values : digits 5 values ->
  mapM (fun v => charset !! N.to_nat v) values = Some (map char_of values).
Proof.
  intros D. induction D as [|v l Hv _ IH]; [done|]. cbn.
  destruct (char_spec v Hv) as (-> & _). cbn. rewrite IH. done.
Qed.

Lemma newaddress_spec k : is_key k -> exists sym,
  let values := sym ++ create_checksum bech32_hrp sym in
  newaddress k = Some (usd1 ++ map char_of values) /\
  length sym = 53%nat /\ length values = 59%nat /\ digits 5 sym /\ digits 5 values /\
  num 5 sym = num 8 (0 :: k) * 2 /\ polymod (expand_hrp bech32_hrp ++ values) = 1.
Proof.
  intros K. pose proof (key_digits k K) as D. unfold newaddress, type_public_key.
  destruct (convert_bits 8 5 true (0 :: k)) as [sym ok] eqn:E.
  assert (8 * N.of_nat (length (0 :: k)) = 264) as L8.
  { cbn [length]. destruct K as [-> _]. done. }
  apply convert_up in E as (E1 & E2 & E3); [|done|done|done|by rewrite L8].
  rewrite L8 in E1, E3. change (264 / 5 + 1) with 53 in E1. change (2 ^ (5 - 264 mod 5)) with 2 in E3.
  pose proof (checksum_digits bech32_hrp sym) as CD.
  assert (digits 5 (sym ++ create_checksum bech32_hrp sym)) as VD by (apply Forall_app; by split).
  exists sym. cbv zeta. split; [|split; [lia|split; [|split; [done|split; [done|split; [done|]]]]]].
  - unfold encode.
    assert (forallb (fun c => (c <? 65) || (90 <? c)) bech32_hrp = true) as -> by (by vm_compute).
    rewrite mapM_charset by done. done.
  - rewrite app_length. change (length (create_checksum bech32_hrp sym)) with 6%nat. lia.
  - apply checksum_right.
Qed.

Lemma existsb_none {A} (P : A -> bool) l : Forall (fun x => P x = false) l -> existsb P l = false.
Proof. induction 1 as [|x l H _ IH]; [done|]. cbn. by rewrite H. Qed.

Lemma forall_chars (P : N -> Prop) values : (forall v, v < 2 ^ 5 -> P (char_of v)) ->
  digits 5 values -> Forall P (map char_of values).
Proof.
  intros H D. induction D; cbn; [by apply list.Forall_nil|].
  apply list.Forall_cons. split; [by apply H|done].
Qed.

Lemma upper_case_low c : lower_case (to_upper c) = lower_case c.
Proof.
  rewrite !lower_case_eq. unfold to_lower, to_upper. destruct (decide (97 <= c <= 122)).
  - destruct (decide (65 <= c - 32 <= 90)); [|lia]. destruct (decide (65 <= c <= 90)); lia.
  - done.
Qed.

Lemma decode_lower values : digits 5 values -> (6 <= length values <= 86)%nat ->
  polymod (expand_hrp bech32_hrp ++ values) = 1 ->
  decode (usd1 ++ map char_of values) = (bech32_hrp, take (length values - 6) values).
Proof.
  intros D L P. pose proof (decode_back (fun c => c) values) as Q. rewrite !map_id in Q.
  apply Q; try done.
  - intros v Hv. by apply char_spec.
  - apply existsb_none. apply Forall_app. split; [by repeat constructor|].
    apply forall_chars; [|done]. intros v Hv. apply char_spec in Hv as (_ & _ & _ & _ & _ & B & _).
    destruct (N.ltb_spec (char_of v) 33), (N.ltb_spec 126 (char_of v)); try lia;
      by rewrite andb_false_r.
  - rewrite andb_false_iff. right. apply existsb_none. apply Forall_app.
    split; [by repeat constructor|]. apply forall_chars; [|done].
    intros v Hv. by apply char_spec.
  - intros H. assert (Forall (fun c => c <> 49) (map char_of values)) as F.
    { apply forall_chars; [|done]. intros v Hv. by apply char_spec. }
    rewrite Forall_forall in F. by apply (F 49).
Qed.

Lemma decode_upper values : digits 5 values -> (6 <= length values <= 86)%nat ->
  polymod (expand_hrp bech32_hrp ++ values) = 1 ->
  decode (upper (usd1 ++ map char_of values)) = (bech32_hrp, take (length values - 6) values).
Proof.
  intros D L P. apply (decode_back to_upper values); try done.
  - intros v Hv. by apply char_spec.
  - intros c. apply upper_case_low.
  - apply existsb_none. rewrite map_app. apply Forall_app. split; [by repeat constructor|].
    rewrite List.Forall_map. apply forall_chars; [|done].
    intros v Hv. apply char_spec in Hv as (_ & _ & _ & _ & _ & _ & B & _).
    destruct (N.ltb_spec (to_upper (char_of v)) 33), (N.ltb_spec 126 (to_upper (char_of v))); try lia;
      by rewrite andb_false_r.
  - rewrite andb_false_iff. left. apply existsb_none. rewrite map_app. apply Forall_app.
    split; [by repeat constructor|]. rewrite List.Forall_map. apply forall_chars; [|done].
    intros v Hv. by apply char_spec.
  - intros H. assert (Forall (fun c => c <> 49) (map to_upper (map char_of values))) as F.
    { rewrite List.Forall_map. apply forall_chars; [|done]. intros v Hv. by apply char_spec. }
    rewrite Forall_forall in F. by apply (F 49).
Qed.

(** * The client *)

Definition of_symbols (enc : list N) : decoded :=
  let '(data, _) := convert_bits 5 8 false enc in
  match data with
  | [] => OutOfBounds
  | b :: rest => if negb (b =? 0) || negb (length data =? 33)%nat then Rejected else Key rest
  end.

Lemma address_decode_symbols s enc : decode s = (bech32_hrp, enc) ->
  address_decode s = of_symbols enc.
Proof. intros H. unfold address_decode. rewrite H. done. Qed.

Lemma address_decode_cases s :
  address_decode s = Rejected \/
  exists enc, decode s = (bech32_hrp, enc) /\ address_decode s = of_symbols enc.
Proof.
  destruct (decode s) as [h enc] eqn:E. destruct (decide (h = bech32_hrp)) as [->|N].
  - right. exists enc. split; [done|]. by apply address_decode_symbols.
  - left. unfold address_decode. rewrite E. by destruct (decide (h = bech32_hrp)).
Qed.

Lemma of_symbols_key enc k : digits 5 enc -> of_symbols enc = Key k ->
  is_key k /\ (length enc = 53 \/ length enc = 54)%nat /\
  num 8 (0 :: k) = num 5 enc / 2 ^ ((5 * N.of_nat (length enc)) mod 8).
Proof.
  intros D. unfold of_symbols. destruct (convert_bits 5 8 false enc) as [data ok] eqn:E.
  apply convert_down in E as (E1 & E2 & E3); [|done|done|done].
  destruct data as [|b rest]; [done|].
  destruct (N.eqb_spec b 0) as [->|]; [|done]. cbn [negb orb].
  destruct (Nat.eqb_spec (length (0 :: rest)) 33) as [L|]; [|done]. intros [= <-].
  rewrite L in E1. change (N.of_nat 33) with 33 in E1.
  split; [|split; [|done]].
  - split; [cbn in L; lia|]. apply list.Forall_cons in E2 as [_ E2]. exact E2.
  - pose proof (N.div_mod (5 * N.of_nat (length enc)) 8 ltac:(done)) as DM.
    pose proof (N.mod_lt (5 * N.of_nat (length enc)) 8 ltac:(done)) as DL.
    rewrite <- E1 in DM. clear -DM DL. revert DM DL. 
    generalize ((5 * N.of_nat (length enc)) mod 8). generalize (length enc). lia.
Qed.

Lemma of_symbols_back k sym : is_key k -> digits 5 sym -> length sym = 53%nat ->
  num 5 sym = num 8 (0 :: k) * 2 -> of_symbols sym = Key k.
Proof.
  intros K D L E. unfold of_symbols. destruct (convert_bits 5 8 false sym) as [data ok] eqn:C.
  apply convert_down in C as (C1 & C2 & C3); [|done|done|done].
  rewrite L, E in *. change ((5 * N.of_nat 53) / 8) with 33 in C1.
  change (2 ^ ((5 * N.of_nat 53) mod 8)) with 2 in C3.
  rewrite N.div_mul in C3 by done.
  assert (data = 0 :: k) as ->.
  { apply (num_inj 8); [done|by apply key_digits| |done]. cbn [length]. destruct K as [-> _]. lia. }
  cbn [N.eqb negb orb length]. destruct K as [-> _]. done.
Qed.

Lemma of_symbols_bounds enc : digits 5 enc -> (2 <= length enc)%nat -> of_symbols enc <> OutOfBounds.
Proof.
  intros D L. unfold of_symbols. destruct (convert_bits 5 8 false enc) as [data ok] eqn:C.
  apply convert_down in C as (C1 & _ & _); [|done|done|done].
  destruct data as [|b rest]; [|by destruct (_ || _)].
  cbn [length] in C1. exfalso.
  pose proof (N.div_mod (5 * N.of_nat (length enc)) 8 ltac:(done)) as DM.
  pose proof (N.mod_lt (5 * N.of_nat (length enc)) 8 ltac:(done)) as DL.
  rewrite <- C1 in DM. clear -DM DL L. revert DM DL L.
  generalize ((5 * N.of_nat (length enc)) mod 8). generalize (length enc). lia.
Qed.

Lemma lower_length s : length (lower s) = length s.
Proof. apply map_length. Qed.

Lemma lower_values s values : lower s = usd1 ++ map char_of values ->
  length s = (4 + length values)%nat.
Proof. intros H. rewrite <- lower_length, H, app_length, map_length. done. Qed.

(** What the text of an accepted address is. *)
Lemma accepted s k : address_decode s = Key k ->
  exists values, lower s = usd1 ++ map char_of values /\ digits 5 values /\
    polymod (expand_hrp bech32_hrp ++ values) = 1 /\
    (length values = 59 \/ length values = 60)%nat /\ is_key k /\
    of_symbols (take (length values - 6) values) = Key k.
Proof.
  intros H. destruct (address_decode_cases s) as [Q|(enc & E1 & E2)]; [by rewrite Q in H|].
  apply decode_usd in E1 as (values & V1 & V2 & V3 & V4 & ->). rewrite H in E2. symmetry in E2.
  exists values. destruct (of_symbols_key _ _ (Forall_take _ _ _ V2) E2) as (K & L & _).
  rewrite take_length in L. split_and!; done || lia.
Qed.

Theorem roundtrip k : is_key k -> exists a, newaddress k = Some a /\ length a = 63%nat /\
  address_decode a = Key k /\ address_decode (upper a) = Key k.
Proof.
  intros K. destruct (newaddress_spec k K) as (sym & N1 & L1 & L2 & D1 & D2 & E & P).
  set (values := sym ++ _) in *. exists (usd1 ++ map char_of values).
  assert (take (length values - 6) values = sym) as T.
  { rewrite L2. change (59 - 6)%nat with 53%nat. rewrite <- L1. unfold values. apply take_app. }
  split; [done|]. split; [rewrite app_length, map_length, L2; done|]. split.
  - erewrite address_decode_symbols; [|apply decode_lower; [done|lia|done]].
    rewrite T. by apply of_symbols_back.
  - erewrite address_decode_symbols; [|apply decode_upper; [done|lia|done]].
    rewrite T. by apply of_symbols_back.
Qed.

Theorem shape s k : address_decode s = Key k ->
  is_key k /\ (length s = 63 \/ length s = 64)%nat /\
  exists a, newaddress k = Some a /\ take 56 (lower s) = take 56 a.
Proof.
  intros H. destruct (accepted s k H) as (values & V1 & V2 & V3 & V4 & K & O).
  split; [done|]. pose proof (lower_values s values V1) as L. split; [lia|].
  destruct (newaddress_spec k K) as (sym & N1 & L1 & L2 & D1 & D2 & E & P). cbv zeta in N1.
  eexists. split; [exact N1|]. rewrite V1.
  change 56%nat with (length usd1 + 52)%nat. rewrite !take_app_ge by lia.
  replace (length usd1 + 52 - length usd1)%nat with 52%nat by done.
  f_equal. rewrite <- !fmap_take. f_equal.
  rewrite take_app_le by lia.
  assert (take 52 values = take 52 (take (length values - 6) values)) as ->.
  { rewrite take_take. f_equal. lia. }
  set (enc := take (length values - 6) values) in *.
  assert (digits 5 enc) as DE by (by apply Forall_take).
  destruct (of_symbols_key enc k DE O) as (_ & LE & NE).
  apply (num_inj 5); [by apply Forall_take|by apply Forall_take|rewrite !take_length; lia|].
  rewrite !num_take by done. rewrite E, NE, L1.
  destruct LE as [-> | ->].
  - change (2 ^ (5 * N.of_nat (53 - 52))) with 32. change (2 ^ ((5 * N.of_nat 53) mod 8)) with 2.
    change 32 with (2 * 16). rewrite <- !N.div_div by done. by rewrite N.div_mul by done.
  - change (2 ^ (5 * N.of_nat (54 - 52))) with 1024. change (2 ^ (5 * N.of_nat (53 - 52))) with 32.
    change (2 ^ ((5 * N.of_nat 54) mod 8)) with 64.
    change 32 with (2 * 16). rewrite <- (N.div_div _ 2 16) by done. rewrite N.div_mul by done.
    rewrite N.div_div by done. done.
Qed.

(** * Mistakes *)

Lemma differences_app p s t : differences (p ++ s) (p ++ t) = differences s t.
Proof. induction p as [|c p IH]; cbn; [done|]. by destruct (decide (c = c)). Qed.

Lemma differences_chars v w : digits 5 v -> digits 5 w ->
  differences (map char_of v) (map char_of w) = weight (xors v w).
Proof.
  revert w. induction v as [|x v IH]; intros [|y w] Dv Dw; try done. cbn [map differences xors].
  apply list.Forall_cons in Dv as [Dx Dv], Dw as [Dy Dw].
  rewrite weight_cons, IH by done. f_equal.
  destruct (decide (char_of x = char_of y)) as [E|N].
  - apply char_of_inj in E; [|done|done]. subst. rewrite N.lxor_nilpotent. done.
  - destruct (decide (N.lxor x y = 0)) as [E|]; [|done]. apply N.lxor_eq in E. by subst.
Qed.

Lemma weight_app l r : weight (l ++ r) = (weight l + weight r)%nat.
Proof. unfold weight. by rewrite list.filter_app, app_length. Qed.

Lemma weight_rev l : weight (rev l) = weight l.
Proof.
  induction l as [|x l IH]; cbn [rev]; [done|]. rewrite weight_app, IH, (weight_cons x l), weight_cons.
  change (weight []) with 0%nat. lia.
Qed.

Lemma xors_digits v w : digits 5 v -> digits 5 w -> digits 5 (xors v w).
Proof.
  intros Dv. revert w. induction Dv as [|x v Hx _ IH]; intros w Dw; [by apply list.Forall_nil|].
  destruct Dw as [|y w Hy Dw]; [by apply list.Forall_nil|]. cbn.
  apply list.Forall_cons. split; [by apply xor_bound|by apply IH].
Qed.

Lemma xors_length v w : length v = length w -> length (xors v w) = length v.
Proof.
  revert w. induction v as [|x v IH]; intros [|y w] L; try discriminate; cbn; [done|].
  rewrite IH; [done|]. by injection L.
Qed.

Lemma weight_0 v w : length v = length w -> weight (xors v w) = 0%nat -> v = w.
Proof.
  revert w. induction v as [|x v IH]; intros [|y w] L H; try discriminate; [done|].
  cbn [xors] in H. rewrite weight_cons in H.
  destruct (decide (N.lxor x y = 0)) as [E|]; [|lia]. apply N.lxor_eq in E. subst. f_equal.
  apply IH; [by injection L|lia].
Qed.

Lemma far v w : digits 5 v -> digits 5 w -> length v = length w -> (length v <= 60)%nat ->
  polymod (expand_hrp bech32_hrp ++ v) = 1 -> polymod (expand_hrp bech32_hrp ++ w) = 1 ->
  (differences (map char_of v) (map char_of w) <= 4)%nat -> v = w.
Proof.
  intros Dv Dw L B Pv Pw H. rewrite differences_chars in H by done.
  destruct (decide (weight (xors v w) = 0%nat)) as [Z|Z]; [by apply weight_0|].
  exfalso. apply (no_cancel (rev (xors v w))).
  - apply Forall_rev. change 32 with (2 ^ 5). by apply xors_digits.
  - rewrite rev_length, xors_length by done. lia.
  - rewrite weight_rev. lia.
  - apply (polymod_diff (expand_hrp bech32_hrp)); [done|]. by rewrite Pv, Pw.
Qed.

Theorem distance s1 s2 k1 k2 : address_decode s1 = Key k1 -> address_decode s2 = Key k2 ->
  length s1 = length s2 -> lower s1 <> lower s2 ->
  (5 <= differences (lower s1) (lower s2))%nat.
Proof.
  intros H1 H2 L N. destruct (accepted s1 k1 H1) as (v & V1 & V2 & V3 & V4 & _).
  destruct (accepted s2 k2 H2) as (w & W1 & W2 & W3 & W4 & _).
  apply lower_values in V1 as LV. apply lower_values in W1 as LW.
  destruct (decide (differences (lower s1) (lower s2) <= 4)%nat) as [Q|]; [|lia].
  exfalso. apply N. rewrite V1, W1 in Q |- *. rewrite differences_app in Q.
  f_equal. f_equal. apply far; try done; lia.
Qed.

Theorem in_bounds s : (12 <= length s)%nat -> address_decode s <> OutOfBounds.
Proof.
  intros L. destruct (address_decode_cases s) as [->|(enc & E1 & ->)]; [done|].
  apply decode_usd in E1 as (values & V1 & V2 & V3 & V4 & ->). apply lower_values in V1.
  apply of_symbols_bounds; [by apply Forall_take|]. rewrite take_length. lia.
Qed.

Lemma lower_chars l : digits 5 l -> lower (map char_of l) = map char_of l.
Proof.
  induction 1 as [|v l Hv _ IH]; [done|]. cbn. f_equal; [by apply char_spec|exact IH].
Qed.

Lemma lower_address l : digits 5 l -> lower (usd1 ++ map char_of l) = usd1 ++ map char_of l.
Proof.
  intros D. change (lower (usd1 ++ map char_of l)) with (usd1 ++ lower (map char_of l)).
  by rewrite lower_chars.
Qed.

Theorem typos k a s : is_key k -> newaddress k = Some a -> length s = length a ->
  (1 <= differences (lower s) a <= 4)%nat -> address_decode s = Rejected.
Proof.
  intros K N L D. destruct (roundtrip k K) as (a' & N' & L' & R & _).
  rewrite N in N'. injection N' as <-.
  destruct (address_decode s) as [k'| |] eqn:E; [|done|].
  - exfalso. destruct (accepted a k R) as (w & W1 & _).
    destruct (newaddress_spec k K) as (sym & N1 & _ & _ & _ & D2 & _). cbv zeta in N1.
    assert (lower a = a) as La.
    { rewrite N in N1. pose proof (Some_inj _ _ N1) as ->. by apply lower_address. }
    pose proof (distance s a k' k E R L) as Q. rewrite La in Q.
    destruct (decide (lower s = a)) as [Eq|Ne]; [|specialize (Q Ne); lia].
    rewrite Eq in D. clear -D. induction a as [|c a IH]; cbn in D; [lia|].
    destruct (decide (c = c)); [|done]. apply IH. exact D.
  - exfalso. apply (in_bounds s) in E; [done|]. rewrite L, L'. lia.
Qed.

Theorem dropped k a s : is_key k -> newaddress k = Some a -> one_inserted s a ->
  address_decode s = Rejected.
Proof.
  intros K N (p & c & q & -> & ->). destruct (roundtrip k K) as (a' & N' & L' & _).
  rewrite N in N'. injection N' as <-. rewrite app_length in L'. cbn [length] in L'.
  destruct (address_decode (p ++ q)) as [k'| |] eqn:E; [|done|].
  - apply shape in E as (_ & L & _). rewrite app_length in L. lia.
  - exfalso. apply in_bounds in E; [done|]. rewrite app_length. lia.
Qed.

(** Case. *)
Lemma decode_case s values : lower s = usd1 ++ map char_of values -> digits 5 values ->
  existsb is_lower s && existsb is_upper s = false ->
  decode s = decode (usd1 ++ map char_of values) \/ decode s = decode (upper (usd1 ++ map char_of values)).
Proof.
  intros H D C. apply andb_false_iff in C as [C|C].
  - right. f_equal. rewrite <- H. clear -C. unfold upper, lower. rewrite map_map.
    induction s as [|c s IH]; [done|]. cbn in C |- *. apply orb_false_iff in C as [C1 C2].
    rewrite <- IH by done. f_equal. unfold is_lower in C1.
    unfold to_upper, to_lower. destruct (N.leb_spec 97 c), (N.leb_spec c 122); try done;
      destruct (decide (65 <= c <= 90)); try lia;
      destruct (decide (97 <= c + 32 <= 122)); destruct (decide (97 <= c <= 122)); lia.
  - left. f_equal. rewrite <- H. clear -C. unfold lower.
    induction s as [|c s IH]; [done|]. cbn in C |- *. apply orb_false_iff in C as [C1 C2].
    rewrite <- IH by done. f_equal. unfold is_upper in C1.
    unfold to_lower. destruct (N.leb_spec 65 c), (N.leb_spec c 90); try done;
      destruct (decide (65 <= c <= 90)); lia.
Qed.

Theorem any_case k a s : is_key k -> newaddress k = Some a -> lower s = a ->
  address_decode s = Key k \/
  (address_decode s = Rejected /\
   (exists c, In c s /\ 97 <= c <= 122) /\ (exists c, In c s /\ 65 <= c <= 90)).
Proof.
  intros K N L. destruct (newaddress_spec k K) as (sym & N1 & _ & _ & _ & D2 & _). cbv zeta in N1.
  destruct (roundtrip k K) as (a' & N' & _ & R1 & R2). rewrite N in N', N1.
  injection N' as <-. injection N1 as N1. rewrite N1 in *.
  destruct (existsb is_lower s && existsb is_upper s) eqn:E.
  - right. apply andb_true_iff in E as [E1 E2].
    split.
    + unfold address_decode, decode. rewrite E1, E2. cbn [andb].
      match goal with |- context [if ?b then _ else _] => destruct b; reflexivity end.
    + apply existsb_exists in E1 as (c1 & I1 & X1), E2 as (c2 & I2 & X2).
      unfold is_lower in X1. unfold is_upper in X2.
      rewrite andb_true_iff, !N.leb_le in X1, X2.
      split; [by exists c1|by exists c2].
  - left. destruct (decode_case s _ L D2 E) as [Q|Q]; unfold address_decode in *;
      rewrite Q; done.
Qed.
