(** Proofs about the command line client. *)
From Coq Require Import NArith Lia Bool String.
From stdpp Require Import base option list.
From Verif Require AddressProofs AddressSpec.
From Verif Require Import Base CodecModel CodecSpec TxModel CliModel CliSpec AddressSpec.
From Verif Require Import WireProofs CodecProofs.
From Verif Require HexModel HexProofs ConfigModel ConfigText AddressModel AddressProofs.
Open Scope N_scope.

(** * Numbers *)

Lemma digit_iff c : ConfigModel.is_digit c = true <-> decimal_digit c.
Proof. unfold ConfigModel.is_digit, decimal_digit. rewrite andb_true_iff, !N.leb_le. done. Qed.

Lemma read_dec_inv s : forall acc seen v, ConfigModel.read_dec s acc seen = Some v ->
  exists ds rest, s = ds ++ rest /\ Forall decimal_digit ds /\ (seen = true \/ ds <> []) /\
    v = fold_left (fun n c => 10 * n + (c - 48)) ds acc /\
    (forall c r, rest = c :: r -> ~ decimal_digit c).
Proof.
  induction s as [|c s IH]; intros acc seen v; cbn [ConfigModel.read_dec].
  - destruct seen; [|done]. intros [= <-]. exists [], []. split_and!; try done; (by apply list.Forall_nil) || by left.
  - destruct (ConfigModel.is_digit c) eqn:D.
    + intros H. apply IH in H as (ds & rest & -> & F & _ & -> & R).
      exists (c :: ds), rest. split_and!; try done.
      * apply list.Forall_cons. split; [by apply digit_iff|done].
      * by right.
    + destruct seen; [|done]. intros [= <-]. exists [], (c :: s).
      split_and!; try done; try (by apply list.Forall_nil); try by left.
      intros ? ? [= <- <-] Q. apply digit_iff in Q. congruence.
Qed.

Lemma read_dec_numeral t acc seen : Forall decimal_digit t -> (seen = true \/ t <> []) ->
  ConfigModel.read_dec t acc seen = Some (fold_left (fun n c => 10 * n + (c - 48)) t acc).
Proof.
  revert acc seen. induction t as [|c t IH]; intros acc seen F S; cbn [ConfigModel.read_dec fold_left].
  - destruct S as [->|S]; done.
  - apply list.Forall_cons in F as [Fc F]. apply digit_iff in Fc. rewrite Fc. apply IH; [done|by left].
Qed.

Lemma skip_space_inv s : exists blanks, s = blanks ++ HexModel.skip_space s /\ Forall blank blanks.
Proof.
  induction s as [|c s (bs & E & F)]; cbn [HexModel.skip_space].
  - exists []. split; [done|by apply list.Forall_nil].
  - destruct (HexModel.is_space c) eqn:S.
    + exists (c :: bs). cbn. rewrite <- E. split; [done|]. apply list.Forall_cons. split; [|done].
      unfold HexModel.is_space in S. rewrite orb_true_iff, andb_true_iff, N.eqb_eq, !N.leb_le in S.
      exact S.
    + exists []. split; [done|by apply list.Forall_nil].
Qed.

Lemma stoull_inv t v : ConfigModel.stoull t = ConfigModel.Val v ->
  exists neg n, reads_as t neg n /\ n < 2 ^ 64 /\
    v = (if neg then (2 ^ 64 - n) mod 2 ^ 64 else n).
Proof.
  unfold ConfigModel.stoull. destruct (skip_space_inv t) as (bs & E & F).
  destruct (match HexModel.skip_space t with [] => _ | _ => _ end) as [neg s2] eqn:M.
  destruct (ConfigModel.read_dec s2 0 false) as [n|] eqn:R; [|done].
  destruct (N.leb_spec two64 n) as [|L]; [done|]. intros [= <-].
  apply read_dec_inv in R as (ds & rest & E2 & FD & [?|ND] & -> & NR); [done|].
  exists neg, (numeral_value ds). split; [|split; [exact L|done]].
  assert (exists sign, HexModel.skip_space t = sign ++ s2 /\
    (neg = true /\ sign = [45] \/ neg = false /\ (sign = [] \/ sign = [43]))) as (sign & S1 & S2).
  { destruct (HexModel.skip_space t) as [|c r]; [injection M as <- <-; exists []; auto|].
    destruct (N.eqb_spec c 45) as [->|]; [injection M as <- <-; exists [45]; auto|].
    destruct (N.eqb_spec c 43) as [->|]; [injection M as <- <-; exists [43]; auto|].
    injection M as <- <-. exists []. auto. }
  exists bs, sign, ds, rest. split; [rewrite <- E2, <- S1; exact E|].
  split; [done|]. split; [by split|]. split; [done|]. by split.
Qed.

Lemma stoull_numeral t : numeral t -> numeral_value t < 2 ^ 64 ->
  ConfigModel.stoull t = ConfigModel.Val (numeral_value t).
Proof.
  intros [N F] L. unfold ConfigModel.stoull. destruct t as [|c t]; [done|].
  pose proof F as F'. apply list.Forall_cons in F' as [Fc _]. unfold decimal_digit in Fc.
  cbn [HexModel.skip_space].
  assert (HexModel.is_space c = false) as ->.
  { unfold HexModel.is_space. rewrite orb_false_iff, andb_false_iff, N.eqb_neq, !N.leb_gt. lia. }
  destruct (N.eqb_spec c 45); [lia|]. destruct (N.eqb_spec c 43); [lia|].
  rewrite read_dec_numeral by (done || by right). fold (numeral_value (c :: t)).
  destruct (N.leb_spec two64 (numeral_value (c :: t))) as [Q|]; [|done].
  unfold two64 in Q. change (2 ^ 64) with 18446744073709551616 in L. lia.
Qed.

(** * Commands *)

Lemma u32_small v : v < 2 ^ 32 -> to_u32 v = v.
Proof. apply N.mod_small. Qed.

Lemma to_64 v : v < 2 ^ 32 -> v < 2 ^ 64.
Proof. intros H. eapply N.lt_trans; [exact H|by vm_compute]. Qed.

Theorem send_plain p cf cl w t a more k : numeral t -> numeral_value t < 2 ^ 32 ->
  AddressModel.address_decode a = AddressModel.Key k ->
  main (command_line p cf cl w (lit "send") (t :: a :: more)) = Did (CallSend (numeral_value t) k).
Proof.
  intros N L A. unfold main, command_line. cbn [length Nat.ltb Nat.leb arg lookup list_lookup].
  rewrite decide_False by done. rewrite decide_True by done.
  unfold send_command. cbn [length Nat.ltb Nat.leb arg lookup list_lookup].
  unfold number, payee. rewrite stoull_numeral by (done || by apply to_64). rewrite A.
  by rewrite u32_small.
Qed.

Theorem fan_plain p cf cl w c t a more k : numeral c -> numeral t ->
  numeral_value c < 2 ^ 32 -> numeral_value t < 2 ^ 32 ->
  AddressModel.address_decode a = AddressModel.Key k ->
  main (command_line p cf cl w (lit "fan") (c :: t :: a :: more))
  = Did (CallFan (numeral_value c) (numeral_value t) k).
Proof.
  intros N1 N2 L1 L2 A. unfold main, command_line. cbn [length Nat.ltb Nat.leb arg lookup list_lookup].
  rewrite !decide_False by done. rewrite decide_True by done.
  unfold fan_command. cbn [length Nat.ltb Nat.leb arg lookup list_lookup].
  unfold number, payee. rewrite !stoull_numeral by (done || by apply to_64). rewrite A.
  by rewrite !u32_small.
Qed.

Theorem mint_plain p cf cl w n t more : numeral n -> numeral t ->
  numeral_value n < 2 ^ 64 -> numeral_value t < 2 ^ 32 ->
  main (command_line p cf cl w (lit "mint") (n :: t :: more))
  = Did (CallMint (numeral_value n) (numeral_value t)).
Proof.
  intros N1 N2 L1 L2. unfold main, command_line. cbn [length Nat.ltb Nat.leb arg lookup list_lookup].
  rewrite decide_True by done.
  unfold mint_command. cbn [length Nat.ltb Nat.leb arg lookup list_lookup].
  unfold number. rewrite !stoull_numeral by (done || by apply to_64).
  by rewrite !u32_small.
Qed.

(** * What is sent is what was read *)

Lemma number_did s f c : number s f = Did c -> exists v, ConfigModel.stoull s = ConfigModel.Val v /\ f v = Did c.
Proof. unfold number. destruct (ConfigModel.stoull s) as [v| | | |]; try done. by exists v. Qed.

Lemma payee_did s f c : payee s f = Did c ->
  exists k, AddressModel.address_decode s = AddressModel.Key k /\ f k = Did c.
Proof. unfold payee. destruct (AddressModel.address_decode s) as [k| |]; try done. by exists k. Qed.

Lemma arg_did args i f c : arg args i f = Did c -> exists s, args !! i = Some s /\ f s = Did c.
Proof. unfold arg. destruct (args !! i) as [s|]; [|done]. by exists s. Qed.

Lemma u32_read t v : ConfigModel.stoull t = ConfigModel.Val v -> read_as t (to_u32 v).
Proof.
  intros H. apply stoull_inv in H as (neg & n & R & L & ->). by exists neg, n.
Qed.

(** The command a call of the client comes from. *)
Definition justified (args : list (list N)) (c : call) : Prop :=
  match c with
  | CallSend v k => args !! 4%nat = Some (lit "send") /\ exists t a,
      args !! 5%nat = Some t /\ args !! 6%nat = Some a /\ read_as t v /\
      AddressModel.address_decode a = AddressModel.Key k
  | CallFan n v k => args !! 4%nat = Some (lit "fan") /\ exists m t a,
      args !! 5%nat = Some m /\ args !! 6%nat = Some t /\ args !! 7%nat = Some a /\
      read_as m n /\ read_as t v /\ AddressModel.address_decode a = AddressModel.Key k
  | CallMint n v => args !! 4%nat = Some (lit "mint") /\ exists m t,
      args !! 5%nat = Some m /\ args !! 6%nat = Some t /\
      ConfigModel.stoull m = ConfigModel.Val n /\ read_as t v
  | CallImport i => args !! 4%nat = Some (lit "importinput") /\ exists h b s,
      args !! 5%nat = Some h /\ HexModel.from_hex h = Some b /\ from_buffer c_input b = Ok (Some i) s
  | CallConfirm t => args !! 4%nat = Some (lit "confirmtx") /\ exists h,
      args !! 5%nat = Some h /\ HexModel.hash_from_hex h = HexModel.HashIs t
  | CallSync => args !! 4%nat = Some (lit "sync")
  | CallNewAddress => args !! 4%nat = Some (lit "newaddress")
  | CallInfo => args !! 4%nat = Some (lit "info")
  end.

Lemma main_did args c : main args = Did c -> justified args c.
Proof.
  unfold main. destruct (_ <? 5)%nat; [done|]. intros H. apply arg_did in H as (cmd & C & H).
  destruct (decide (cmd = lit "mint")) as [->|_].
  { unfold mint_command in H. destruct (_ <? 7)%nat; [done|].
    apply arg_did in H as (m & A5 & H). apply number_did in H as (n & S1 & H).
    apply arg_did in H as (t & A6 & H). apply number_did in H as (v & S2 & H).
    injection H as <-. split; [done|]. exists m, t. split_and!; try done. by apply u32_read. }
  destruct (decide (cmd = lit "send")) as [->|_].
  { unfold send_command in H. destruct (_ <? 7)%nat; [done|].
    apply arg_did in H as (t & A5 & H). apply number_did in H as (v & S1 & H).
    apply arg_did in H as (a & A6 & H). apply payee_did in H as (k & S2 & H).
    injection H as <-. split; [done|]. exists t, a. split_and!; try done. by apply u32_read. }
  destruct (decide (cmd = lit "fan")) as [->|_].
  { unfold fan_command in H. destruct (_ <? 8)%nat; [done|].
    apply arg_did in H as (t & A6 & H). apply number_did in H as (v & S1 & H).
    apply arg_did in H as (m & A5 & H). apply number_did in H as (n & S3 & H).
    apply arg_did in H as (a & A7 & H). apply payee_did in H as (k & S2 & H).
    injection H as <-. split; [done|]. exists m, t, a. split_and!; try done; by apply u32_read. }
  destruct (decide (cmd = lit "sync")) as [->|_]; [injection H as <-; exact C|].
  destruct (decide (cmd = lit "newaddress")) as [->|_]; [injection H as <-; exact C|].
  destruct (decide (cmd = lit "info")) as [->|_]; [injection H as <-; exact C|].
  destruct (decide (cmd = lit "importinput")) as [->|_].
  { unfold importinput_command in H. apply arg_did in H as (h & A5 & H).
    destruct (HexModel.from_hex h) as [b|] eqn:E; [|done].
    destruct (from_buffer c_input b) as [[i|] s| |] eqn:E2; try done.
    injection H as <-. split; [done|]. by exists h, b, s. }
  destruct (decide (cmd = lit "confirmtx")) as [->|_]; [|done].
  unfold confirmtx_command in H. apply arg_did in H as (h & A5 & H).
  destruct (HexModel.hash_from_hex h) as [b| |] eqn:E; try done.
  injection H as <-. split; [done|]. by exists h.
Qed.

(** A wrong address: nothing is done. *)
Theorem bad_address p cf cl w t a more : numeral t -> numeral_value t < 2 ^ 64 ->
  AddressModel.address_decode a = AddressModel.Rejected ->
  main (command_line p cf cl w (lit "send") (t :: a :: more)) = Refused.
Proof.
  intros N L A. unfold main, command_line. cbn [length Nat.ltb Nat.leb arg lookup list_lookup].
  rewrite decide_False by done. rewrite decide_True by done.
  unfold send_command. cbn [length Nat.ltb Nat.leb arg lookup list_lookup].
  unfold number, payee. rewrite stoull_numeral by done. by rewrite A.
Qed.

(** * Bytes *)

Lemma hex_same b : in_hex b = HexModel.to_hex b.
Proof. done. Qed.

Lemma input_bytes i : Forall is_byte (encoding c_input i) /\ length (encoding c_input i) = 80%nat.
Proof.
  destruct i as [[t n] [c v]]. unfold encoding. rewrite make_buffer_ok.
  change (wr c_input (Input (OutPoint t n) (Output c v)))
    with [be_bytes 32 t; le_bytes 8 n; be_bytes 32 c; le_bytes 8 v].
  cbn [concat]. rewrite app_nil_r. split.
  - apply Forall_app. split; [apply be_bytes_is_byte|].
    apply Forall_app. split; [apply le_bytes_is_byte|].
    apply Forall_app. split; [apply be_bytes_is_byte|apply le_bytes_is_byte].
  - rewrite !app_length. reflexivity.
Qed.

Theorem import_back p cf cl w i more : dom c_input i ->
  main (command_line p cf cl w (lit "importinput") (in_hex (encoding c_input i) :: more))
  = Did (CallImport i).
Proof.
  intros D. unfold main, command_line. cbn [length Nat.ltb Nat.leb arg lookup list_lookup].
  rewrite !decide_False by done. rewrite decide_True by done.
  unfold importinput_command. cbn [arg lookup list_lookup].
  destruct (input_bytes i) as [B L].
  assert (HexModel.from_hex (in_hex (encoding c_input i)) = Some (encoding c_input i)) as ->.
  { apply HexProofs.roundtrip; [done|]. rewrite L. split; [|by vm_compute].
    intros E. rewrite E in L. done. }
  destruct wire_input as [R _]. specialize (R i [] D). rewrite app_nil_r in R.
  unfold from_buffer. by rewrite R.
Qed.

(** Whatever else is given to it is refused. *)
Lemma input_total b : (exists i s, from_buffer c_input b = Ok (Some i) s) \/
  exists s, from_buffer c_input b = Ok None s.
Proof.
  unfold from_buffer.
  assert (H : exists i s, dec c_input (Dst b true) = Ok i s).
  { assert (Ha : forall n s, exists v s', dec (c_array n) s = Ok v s').
    { intros n s. simpl. destruct (rd (N.of_nat n) s) as [[x|] s']; eauto. }
    assert (Hu : forall n s, exists v s', dec (c_uint n) s = Ok v s').
    { intros n s. simpl. destruct (rd (N.of_nat n) s) as [[x|] s']; eauto. }
    unfold c_input, c_out_point, c_output, c_iso, c_pair, c_hash, c_u64.
    cbn [dec]. generalize (Dst b true) as s0. intros s0.
    destruct (Ha 32%nat s0) as (v1 & s1 & E1). rewrite E1. cbn [bind].
    destruct (Hu 8%nat s1) as (v2 & s2 & E2). rewrite E2. cbn [bind].
    destruct (Ha 32%nat s2) as (v3 & s3 & E3). rewrite E3. cbn [bind].
    destruct (Hu 8%nat s3) as (v4 & s4 & E4). rewrite E4. cbn [bind]. eauto. }
  destruct H as (i & s & ->). destruct (valid s); eauto.
Qed.

Theorem import_else p cf cl w h more :
  (forall i, main (command_line p cf cl w (lit "importinput") (h :: more)) <> Did (CallImport i)) ->
  main (command_line p cf cl w (lit "importinput") (h :: more)) = Refused.
Proof.
  unfold main, command_line. cbn [length Nat.ltb Nat.leb arg lookup list_lookup].
  rewrite !decide_False by done. rewrite decide_True by done.
  unfold importinput_command. cbn [arg lookup list_lookup].
  destruct (HexModel.from_hex h) as [b|]; [|done].
  destruct (input_total b) as [(i & s & ->)|(s & ->)]; [|done]. intros H. by destruct (H i).
Qed.

Theorem confirm_back p cf cl w h more : length h = 32%nat -> Forall is_byte h ->
  main (command_line p cf cl w (lit "confirmtx") (in_hex h :: more)) = Did (CallConfirm h).
Proof.
  intros L B. unfold main, command_line. cbn [length Nat.ltb Nat.leb arg lookup list_lookup].
  rewrite !decide_False by done. rewrite decide_True by done.
  unfold confirmtx_command. cbn [arg lookup list_lookup].
  by rewrite hex_same, HexProofs.hash_roundtrip.
Qed.

(** Together with the address: paying what another client printed. *)
Theorem send_printed p cf cl w t more k : AddressSpec.is_key k -> numeral t ->
  numeral_value t < 2 ^ 32 -> exists a, AddressModel.newaddress k = Some a /\
  main (command_line p cf cl w (lit "send") (t :: a :: more)) = Did (CallSend (numeral_value t) k).
Proof.
  intros Hk Ht Hv. destruct (AddressProofs.roundtrip k Hk) as (a & Ha & _ & Hd & _).
  exists a. split; [done|]. by apply send_plain.
Qed.

Theorem send_misspelt p cf cl w t more k a s : AddressSpec.is_key k -> numeral t ->
  numeral_value t < 2 ^ 64 -> AddressModel.newaddress k = Some a -> length s = length a ->
  (1 <= AddressSpec.differences (AddressSpec.lower s) a <= 4)%nat ->
  main (command_line p cf cl w (lit "send") (t :: s :: more)) = Refused.
Proof.
  intros Hk Ht Hv Ha Hl Hd. apply bad_address; [done|done|].
  by apply (AddressProofs.typos k a s).
Qed.

(** The other commands. *)
Theorem other_commands p cf cl w rest :
  main (command_line p cf cl w (lit "sync") rest) = Did CallSync /\
  main (command_line p cf cl w (lit "newaddress") rest) = Did CallNewAddress /\
  main (command_line p cf cl w (lit "info") rest) = Did CallInfo.
Proof. split; [|split]; reflexivity. Qed.

Theorem unknown_command p cf cl w c rest :
  ~ In c [lit "mint"; lit "send"; lit "fan"; lit "sync"; lit "newaddress"; lit "info";
          lit "importinput"; lit "confirmtx"] ->
  main (command_line p cf cl w c rest) = Refused.
Proof.
  intros H. unfold main, command_line. cbn [length Nat.ltb Nat.leb].
  unfold arg. cbn [lookup list_lookup]. cbn [In] in H.
  repeat (rewrite decide_False; [|intros ->; apply H; tauto]). reflexivity.
Qed.

Theorem too_short args : (length args < 5)%nat -> main args = Refused.
Proof. intros H. unfold main. by rewrite (proj2 (Nat.ltb_lt _ _) H). Qed.

Theorem too_few p cf cl w rest :
  (length rest < 2)%nat ->
  main (command_line p cf cl w (lit "mint") rest) = Refused /\
  main (command_line p cf cl w (lit "send") rest) = Refused.
Proof.
  intros H. destruct rest as [|a [|b r]]; cbn in H; [split; reflexivity..|lia].
Qed.
Theorem too_few_fan p cf cl w rest :
  (length rest < 3)%nat -> main (command_line p cf cl w (lit "fan") rest) = Refused.
Proof.
  intros H. destruct rest as [|a [|b [|c r]]]; cbn in H; [reflexivity..|lia].
Qed.

(** Where behaviour is undefined. *)
Lemma number_undefined s f : number s f = Undefined ->
  exists v, ConfigModel.stoull s = ConfigModel.Val v /\ f v = Undefined.
Proof. unfold number. destruct (ConfigModel.stoull s); try discriminate. eauto. Qed.
Lemma payee_undefined s f : payee s f = Undefined ->
  AddressModel.address_decode s = AddressModel.OutOfBounds \/
  exists k, AddressModel.address_decode s = AddressModel.Key k /\ f k = Undefined.
Proof. unfold payee. destruct (AddressModel.address_decode s); try discriminate; eauto. Qed.
Lemma arg_undefined args i f : (i < length args)%nat -> arg args i f = Undefined ->
  exists s, args !! i = Some s /\ f s = Undefined.
Proof.
  intros H. unfold arg. destruct (lookup_lt_is_Some_2 args i H) as [s ->]. eauto.
Qed.

Theorem main_undefined args : main args = Undefined ->
  args !! 4%nat = Some (lit "importinput") \/ args !! 4%nat = Some (lit "confirmtx") \/
  exists a, In a args /\ (length a < 12)%nat /\
    AddressModel.address_decode a = AddressModel.OutOfBounds.
Proof.
  unfold main. destruct (length args <? 5)%nat eqn:L5; [discriminate|]. apply Nat.ltb_ge in L5.
  intros H. apply arg_undefined in H as (c & Hc & H); [|lia]. rewrite Hc.
  assert (Out : forall i a, args !! i = Some a ->
            AddressModel.address_decode a = AddressModel.OutOfBounds ->
            exists a, In a args /\ (length a < 12)%nat /\
              AddressModel.address_decode a = AddressModel.OutOfBounds).
  { intros i a Ha Ho. exists a. split; [apply elem_of_list_In; by apply elem_of_list_lookup_2 in Ha|].
    split; [|done]. destruct (Nat.lt_ge_cases (length a) 12) as [|G]; [done|].
    by destruct (AddressProofs.in_bounds a G). }
  repeat (case_decide; [subst c|]); try discriminate H; try (by left); try (by right; left);
    right; right.
  - revert H. unfold mint_command. destruct (length args <? 7)%nat eqn:L; [discriminate|].
    apply Nat.ltb_ge in L. intros H. apply arg_undefined in H as (? & _ & H); [|lia].
    apply number_undefined in H as (? & _ & H). apply arg_undefined in H as (? & _ & H); [|lia].
    apply number_undefined in H as (? & _ & H). discriminate.
  - revert H. unfold send_command. destruct (length args <? 7)%nat eqn:L; [discriminate|].
    apply Nat.ltb_ge in L. intros H. apply arg_undefined in H as (? & _ & H); [|lia].
    apply number_undefined in H as (? & _ & H). apply arg_undefined in H as (? & Ha & H); [|lia].
    apply payee_undefined in H as [H|(? & _ & H)]; [by eapply Out|discriminate].
  - revert H. unfold fan_command. destruct (length args <? 8)%nat eqn:L; [discriminate|].
    apply Nat.ltb_ge in L. intros H. apply arg_undefined in H as (? & _ & H); [|lia].
    apply number_undefined in H as (? & _ & H). apply arg_undefined in H as (? & _ & H); [|lia].
    apply number_undefined in H as (? & _ & H). apply arg_undefined in H as (? & Ha & H); [|lia].
    apply payee_undefined in H as [H|(? & _ & H)]; [by eapply Out|discriminate].
Qed.
