(** Proofs about EVM transactions. *)
From Coq Require Import Arith NArith List Lia.
From stdpp Require Import base list.
From Verif Require Import Base CodecModel CodecSpec CodecProofs MsgProofs HexModel HexProofs
  RlpModel RlpSpec RlpProofs EvmMathModel EvmMathSpec EvmMathProofs EvmTxModel EvmTxSpec.
Import ListNotations.
Open Scope N_scope.

(** ** Elements *)

Lemma drop_zeros_length b : (length (drop_zeros b) <= length b)%nat.
Proof.
  destruct (drop_zeros_spec b) as (k & E & _). rewrite E at 2. rewrite app_length. lia.
Qed.

Lemma drop_zeros_restore b : repeat 0 (length b - length (drop_zeros b)) ++ drop_zeros b = b.
Proof.
  destruct (drop_zeros_spec b) as (k & E & _).
  assert (L : (length b = k + length (drop_zeros b))%nat).
  { rewrite E at 1. rewrite app_length, repeat_length. done. }
  replace (length b - length (drop_zeros b))%nat with k by lia. done.
Qed.

Lemma drop_zeros_inj a b : length a = length b -> drop_zeros a = drop_zeros b -> a = b.
Proof.
  intros L E. rewrite <- (drop_zeros_restore a), <- (drop_zeros_restore b). by rewrite L, E.
Qed.

Lemma rlp_word_trim n b : length b = n -> rlp_word n (make_rlp_value b true) = DOk b.
Proof.
  intros L. unfold rlp_word, make_rlp_value. cbn [rlp_data].
  pose proof (drop_zeros_length b). destruct (Nat.ltb_spec n (length (drop_zeros b))); [lia|].
  subst n. by rewrite drop_zeros_restore.
Qed.

Lemma rlp_word_full n b : length b = n -> rlp_word n (make_rlp_value b false) = DOk b.
Proof.
  intros L. unfold rlp_word, make_rlp_value. cbn [rlp_data].
  destruct (Nat.ltb_spec n (length b)); [lia|]. subst n. by rewrite Nat.sub_diag.
Qed.

Lemma element_word n b : word b -> number b = n -> element (Number n) (make_rlp_value b true).
Proof.
  intros [L F] E. exists (drop_zeros b). split; [done|]. split; [|split].
  - rewrite drop_zeros_value, <- number_be. done.
  - by apply drop_zeros_forall.
  - by destruct (drop_zeros_spec b) as (k & _ & H).
Qed.

Lemma decode_access_encode l : Forall access_ok l -> decode_access (encode_access l) = DOk l.
Proof.
  unfold decode_access, encode_access. induction 1 as [|a l [[A1 A2] K] _ IH]; [done|].
  cbn [map dmap]. unfold decode_tuple at 1. rewrite rlp_word_full by done. cbn [dbind value_at nth_error].
  assert (KS : decode_keys (RArr (map (fun k => make_rlp_value k false) (a_keys a))) = DOk (a_keys a)).
  { cbn [decode_keys]. induction K as [|k ks [K1 K2] _ IHK]; [done|]. cbn [map dmap].
    rewrite rlp_word_full by done. cbn [dbind]. by rewrite IHK. }
  rewrite KS. cbn [dbind]. rewrite IH. cbn [dbind]. by destruct a.
Qed.

Lemma access_element l : element (Accesses l) (encode_access l).
Proof. done. Qed.

Lemma u256_chain c : c < 2 ^ 64 -> number (u256 c) = c.
Proof. intros H. apply u256_ok. eapply N.lt_trans; [exact H|]. reflexivity. Qed.

(** ** The bytes of the elements *)

Lemma all_bytes_value b t : Forall is_byte b -> all_bytes (make_rlp_value b t).
Proof. intros F. destruct t; cbn; [by apply drop_zeros_forall|done]. Qed.

Lemma all_bytes_arr l : Forall all_bytes l -> all_bytes (RArr l).
Proof. cbn. induction 1; cbn; auto. Qed.

Lemma all_bytes_access l : Forall access_ok l -> all_bytes (encode_access l).
Proof.
  intros F. apply all_bytes_arr. rewrite Forall_fmap. eapply Forall_impl; [exact F|].
  intros a [[_ A] K]. cbn -[make_rlp_value]. split; [by apply all_bytes_value|]. split; [|done].
  change (all_bytes (RArr (map (fun k => make_rlp_value k false) (a_keys a)))).
  apply all_bytes_arr. rewrite Forall_fmap. eapply Forall_impl; [exact K|].
  intros k [_ B]. by apply all_bytes_value.
Qed.

Lemma all_bytes_tx c s t : well_formed t -> all_bytes (tx_rlp c s t).
Proof.
  intros (T & V & N & GP & GL & GT & GF & I & A & R & S & VV).
  assert (U : forall n, all_bytes (make_rlp_value (u256 n) true)).
  { intros n. apply all_bytes_value, be_bytes_is_byte. }
  assert (W : forall b, word b -> all_bytes (make_rlp_value b true)).
  { intros b [_ B]. by apply all_bytes_value. }
  unfold tx_rlp. apply all_bytes_arr.
  repeat (apply Forall_app_2); repeat (apply Forall_cons_2 || apply Forall_nil_2).
  - destruct (typed _); repeat constructor. apply U.
  - by apply W.
  - destruct (is_dynamic _); repeat constructor; by apply W.
  - by apply W.
  - destruct (t_to t); [apply all_bytes_value, T|apply U].
  - by apply W.
  - exact I.
  - destruct (typed _); repeat constructor. by apply all_bytes_access.
  - destruct s; [destruct (typed _)|]; repeat (apply Forall_cons_2 || apply Forall_nil_2);
      try (by apply W); try (apply U); apply all_bytes_value, le_bytes_is_byte.
Qed.

Lemma fits_rlp c s t : fits c t -> len (rlp_bytes (tx_rlp c s t)) <= max_alloc.
Proof. intros [F1 F2]. unfold tx_encode in *. rewrite !len_app in *. destruct s; lia. Qed.

Lemma first_byte l e : RLP (RArr l) e -> exists x r, e = x :: r /\ 192 <= x.
Proof. inversion 1; subst; eexists _, _; split; (reflexivity || lia). Qed.

Lemma first_byte_tx c s t : well_formed t -> fits c t ->
  exists x r, rlp_bytes (tx_rlp c s t) = x :: r /\ 192 <= x.
Proof.
  intros W F. assert (R : RLP (tx_rlp c s t) (rlp_bytes (tx_rlp c s t))).
  { apply standard; [by apply all_bytes_tx|by apply fits_rlp]. }
  unfold tx_rlp in *. eapply first_byte. exact R.
Qed.

(** ** The standards *)

Lemma encodes_elements c (s : bool) t : well_formed t -> fits c t -> c < 2 ^ 64 ->
  match tx_rlp c s t with
  | RArr vs => Forall2 element (unsigned_fields c t ++ if s then signing_fields c t else signature_fields t) vs
  | RBuf _ => False
  end.
Proof.
  intros W F C.
  pose proof W as (T & V & N & GP & GL & GT & GF & I & A & RR & SS & VV).
  assert (U : element (Number c) (make_rlp_value (u256 c) true)).
  { apply element_word; [apply u256_word|by apply u256_chain]. }
  assert (Z : element (Number 0) (make_rlp_value (le_bytes 4 0) true)).
  { exists []. split; [done|]. split; [done|]. split; [constructor|done]. }
  assert (TO : element (to_field (t_to t)) (match t_to t with
        | Some a => make_rlp_value a false
        | None => make_rlp_value (u256 0) true end)) by by destruct (t_to t).
  unfold tx_rlp, unsigned_fields, signing_fields, signature_fields.
  destruct (t_type t), s; cbn [typed is_dynamic app];
      repeat (apply Forall2_cons; split); try apply Forall2_nil; try done; try (by apply element_word).
Qed.

Lemma encodes_ok c (s : bool) t : well_formed t -> fits c t -> c < 2 ^ 64 ->
  encodes t (unsigned_fields c t ++ if s then signing_fields c t else signature_fields t)
    (tx_encode c s t).
Proof.
  intros W F C.
  pose proof (standard (tx_rlp c s t) (all_bytes_tx c s t W) (fits_rlp c s t F)) as R.
  pose proof (encodes_elements c s t W F C) as E.
  unfold encodes, tx_encode, type_prefix.
  destruct (tx_rlp c s t) as [?|vs]; [done|]. exists vs, (rlp_bytes (RArr vs)).
  split; [by destruct (t_type t)|]. done.
Qed.

(** ** Round trip *)

Lemma from_rlp v : all_bytes v -> len (rlp_bytes v) <= max_alloc ->
  exists s, from_buffer c_rlp (rlp_bytes v) = Ok (Some v) s.
Proof.
  intros A L. unfold from_buffer.
  assert (E : dec c_rlp (Dst (rlp_bytes v) true) = Ok v (Dst [] true)).
  { rewrite <- (app_nil_r (rlp_bytes v)) at 1. cbn [dec c_rlp].
    apply rt_all; [done|done|]. cbn [CodecModel.rem]. rewrite app_nil_r. lia. }
  rewrite E. eauto.
Qed.

Lemma round_trip c t : c < 2 ^ 64 -> well_formed t -> only_own_fields t -> legacy_chain c t -> fits c t ->
  tx_decode c (tx_encode c false t) = DOk t.
Proof.
  intros C W O LC F.
  destruct (from_rlp (tx_rlp c false t)) as [s0 FB]; [by apply all_bytes_tx|by apply fits_rlp|].
  destruct (first_byte_tx c false t W F) as (x & r & E & X).
  assert (CD : check_tx_decode (tx_encode c false t) = DOk (t_type t, tx_rlp c false t)).
  { unfold check_tx_decode, tx_encode.
    destruct (t_type t) eqn:TT; cbn [typed app type_byte].
    - rewrite E. destruct (N.eqb_spec x 1); [lia|]. destruct (N.eqb_spec x 2); [lia|].
      rewrite <- E, FB. unfold tx_rlp. rewrite TT. done.
    - change (1 =? 1) with true. cbn iota. rewrite FB. unfold tx_rlp. rewrite TT. done.
    - change (2 =? 1) with false. change (2 =? 2) with true. cbn iota.
      rewrite FB. unfold tx_rlp. rewrite TT. done. }
  unfold tx_decode. rewrite CD. cbn [dbind fst snd].
  destruct W as (TO & V & N & GP & GL & GT & GF & I & A & RR & SS & VV).
  unfold only_own_fields, legacy_chain in *.
  destruct t as [ty to value nonce price limit tip fee input al [sr ss sv]].
  cbn [t_type t_to t_value t_nonce t_gas_price t_gas_limit t_gas_tip_cap t_gas_fee_cap t_input t_access t_sig s_r s_s s_v] in *.
  assert (CH : (to_uint64 (u256 c) =? c) = true).
  { apply N.eqb_eq. rewrite to_uint64_ok by apply u256_word. rewrite u256_chain by done.
    by apply N.mod_small. }
  assert (DT : decode_to (match to with Some a => make_rlp_value a false | None => make_rlp_value (u256 0) true end) = DOk to).
  { destruct to as [a|]; [|done]. unfold decode_to. destruct (N.eqb_spec (rlp_size (make_rlp_value a false)) 0) as [Z|Z].
    - cbn in Z. unfold len in Z. destruct TO; lia.
    - rewrite rlp_word_full by apply TO. done. }
  assert (WT : forall b, word b -> rlp_word 32 (make_rlp_value b true) = DOk b).
  { intros b [L _]. by apply rlp_word_trim. }
  Ltac go WT DT CH :=
    repeat (cbn [t_type t_to t_value t_nonce t_gas_price t_gas_limit t_gas_tip_cap t_gas_fee_cap t_input t_access
         t_sig s_r s_s s_v typed is_dynamic app value_at nth_error dbind Nat.add fst snd decode_input];
      first [ rewrite WT by (done || apply u256_word) | rewrite DT | rewrite CH
            | rewrite decode_access_encode by done ]);
    cbn [t_type t_to t_value t_nonce t_gas_price t_gas_limit t_gas_tip_cap t_gas_fee_cap t_input t_access
         t_sig s_r s_s s_v typed is_dynamic app value_at nth_error dbind Nat.add fst snd decode_input].
  destruct ty; unfold tx_rlp; go WT DT CH.
  - destruct O as (-> & -> & ->).
    assert (LV : ((eip155_v_offset <=? to_uint64 sv) && negb ((to_uint64 sv - eip155_v_offset) / 2 =? c))%bool = false).
    { rewrite to_uint64_ok by done. unfold eip155_v_offset.
      destruct (LC eq_refl) as [H|H].
      - destruct (N.leb_spec 35 (number sv mod 2 ^ 64)); [lia|done].
      - rewrite H, N.eqb_refl. cbn. apply andb_false_r. }
    rewrite LV. go WT DT CH. done.
  - destruct O as (-> & ->). done.
  - rewrite O. done.
Qed.

(** ** Different transactions have different encodings *)

Lemma injective c t t' : c < 2 ^ 64 ->
  well_formed t -> only_own_fields t -> legacy_chain c t -> fits c t ->
  well_formed t' -> only_own_fields t' -> legacy_chain c t' -> fits c t' ->
  tx_encode c false t = tx_encode c false t' -> t = t'.
Proof.
  intros C W O L F W' O' L' F' E.
  pose proof (round_trip c t C W O L F) as R. pose proof (round_trip c t' C W' O' L' F') as R'.
  rewrite E in R. rewrite R in R'. by inversion R'.
Qed.

Lemma rlp_inj v v' : all_bytes v -> all_bytes v' ->
  len (rlp_bytes v) <= max_alloc -> len (rlp_bytes v') <= max_alloc ->
  rlp_bytes v = rlp_bytes v' -> v = v'.
Proof.
  intros A A' L L' E.
  destruct (from_rlp v A L) as [s S]. destruct (from_rlp v' A' L') as [s' S'].
  rewrite E in S. rewrite S in S'. by inversion S'.
Qed.

Lemma trim_inj b b' : word b -> word b' -> make_rlp_value b true = make_rlp_value b' true -> b = b'.
Proof. intros [L _] [L' _] E. inversion E. apply drop_zeros_inj; [lia|done]. Qed.

Lemma encode_access_inj l l' : encode_access l = encode_access l' -> l = l'.
Proof.
  unfold encode_access. intros E. injection E as E. revert l' E.
  induction l as [|[a k] l IH]; intros [|[a' k'] l'] E; try done.
  cbn [map make_rlp_value a_address a_keys] in E. injection E as -> K E. f_equal; [|by apply IH].
  f_equal. clear -K. revert k' K. induction k as [|x k IH]; intros [|x' k'] K; try done.
  cbn in K. injection K as -> K. f_equal. by apply IH.
Qed.

Lemma to_inj (o o' : option bytes) :
  match o with Some a => address a | None => True end ->
  match o' with Some a => address a | None => True end ->
  match o with Some a => make_rlp_value a false | None => make_rlp_value (u256 0) true end =
  match o' with Some a => make_rlp_value a false | None => make_rlp_value (u256 0) true end ->
  o = o'.
Proof.
  assert (Z : make_rlp_value (u256 0) true = RBuf []) by reflexivity.
  destruct o as [a|], o' as [a'|]; intros A A' E; rewrite ?Z in E; inversion E; subst; try done.
  - by destruct A.
  - by destruct A'.
Qed.

(** The hash that is signed determines the transaction and the chain. *)
Lemma signed_inj c c' t t' : c < 2 ^ 64 -> c' < 2 ^ 64 ->
  well_formed t -> only_own_fields t -> fits c t ->
  well_formed t' -> only_own_fields t' -> fits c' t' ->
  tx_encode c true t = tx_encode c' true t' -> c = c' /\ t' = with_sig t (t_sig t').
Proof.
  intros C C' W O F W' O' F' E.
  destruct (first_byte_tx c true t W F) as (x & r & X & X2).
  destruct (first_byte_tx c' true t' W' F') as (y & q & Y & Y2).
  assert (T : t_type t = t_type t').
  { unfold tx_encode in E. rewrite X, Y in E.
    destruct (t_type t), (t_type t'); cbn in E; try done; inversion E; subst; lia. }
  assert (R : tx_rlp c true t = tx_rlp c' true t').
  { apply rlp_inj; try by apply all_bytes_tx. 1, 2: by apply fits_rlp.
    unfold tx_encode in E. rewrite T in E. by apply app_inv_head in E. }
  clear E X Y F F'.
  destruct W as (TO & V & N & GP & GL & GT & GF & I & A & RR & SS & VV).
  destruct W' as (TO' & V' & N' & GP' & GL' & GT' & GF' & I' & A' & RR' & SS' & VV').
  unfold only_own_fields in *.
  destruct t as [ty to value nonce price limit tip fee input al sg].
  destruct t' as [ty' to' value' nonce' price' limit' tip' fee' input' al' sg'].
  cbn [t_type t_to t_value t_nonce t_gas_price t_gas_limit t_gas_tip_cap t_gas_fee_cap t_input t_access t_sig] in *.
  subst ty'. unfold with_sig, tx_rlp in *.
  cbn [t_type t_to t_value t_nonce t_gas_price t_gas_limit t_gas_tip_cap t_gas_fee_cap t_input t_access t_sig] in *.
  assert (CC : u256 c = u256 c' -> c = c').
  { intros H. rewrite <- (u256_chain c C), <- (u256_chain c' C'). by rewrite H. }
  destruct ty; cbn [typed is_dynamic app] in R.
  - assert (IJ : forall (a1 a2 a3 a4 a5 a6 a7 a8 a9 b1 b2 b3 b4 b5 b6 b7 b8 b9 : rlp),
      RArr [a1;a2;a3;a4;a5;a6;a7;a8;a9] = RArr [b1;b2;b3;b4;b5;b6;b7;b8;b9] ->
      a1 = b1 /\ a2 = b2 /\ a3 = b3 /\ a4 = b4 /\ a5 = b5 /\ a6 = b6 /\ a7 = b7)
      by (clear; intros * H; injection H; intros; subst; repeat split; reflexivity).
    apply IJ in R as (R1 & R2 & R3 & R4 & R5 & R6 & R7).
    apply trim_inj in R1, R2, R3, R5, R7; try done; try apply u256_word.
    apply to_inj in R4; try done. injection R6 as R6. subst.
    destruct O as (-> & -> & ->), O' as (-> & -> & ->). split; [by apply CC|done].
  - assert (IJ : forall (a1 a2 a3 a4 a5 a6 a7 a8 b1 b2 b3 b4 b5 b6 b7 b8 : rlp),
      RArr [a1;a2;a3;a4;a5;a6;a7;a8] = RArr [b1;b2;b3;b4;b5;b6;b7;b8] ->
      a1 = b1 /\ a2 = b2 /\ a3 = b3 /\ a4 = b4 /\ a5 = b5 /\ a6 = b6 /\ a7 = b7 /\ a8 = b8)
      by (clear; intros * H; injection H; intros; subst; repeat split; reflexivity).
    apply IJ in R as (R1 & R2 & R3 & R4 & R5 & R6 & R7 & R8).
    apply trim_inj in R1, R2, R3, R4, R6; try done; try apply u256_word.
    apply to_inj in R5; try done. injection R7 as R7. apply encode_access_inj in R8. subst.
    destruct O as (-> & ->), O' as (-> & ->). split; [by apply CC|done].
  - assert (IJ : forall (a1 a2 a3 a4 a5 a6 a7 a8 a9 b1 b2 b3 b4 b5 b6 b7 b8 b9 : rlp),
      RArr [a1;a2;a3;a4;a5;a6;a7;a8;a9] = RArr [b1;b2;b3;b4;b5;b6;b7;b8;b9] ->
      a1 = b1 /\ a2 = b2 /\ a3 = b3 /\ a4 = b4 /\ a5 = b5 /\ a6 = b6 /\ a7 = b7 /\ a8 = b8 /\ a9 = b9)
      by (clear; intros * H; injection H; intros; subst; repeat split; reflexivity).
    apply IJ in R as (R1 & R2 & R3 & R4 & R5 & R6 & R7 & R8 & R9).
    apply trim_inj in R1, R2, R3, R4, R5, R7; try done; try apply u256_word.
    apply to_inj in R6; try done. injection R8 as R8. apply encode_access_inj in R9. subst.
    split; [by apply CC|done].
Qed.

(** Equal IDs: the same transaction, or a collision of the hash function. *)
Lemma id_unique (keccak : bytes -> bytes) c t t' : c < 2 ^ 64 ->
  well_formed t -> only_own_fields t -> legacy_chain c t -> fits c t ->
  well_formed t' -> only_own_fields t' -> legacy_chain c t' -> fits c t' ->
  tx_id keccak c t = tx_id keccak c t' -> t = t' \/ exists a b, a <> b /\ keccak a = keccak b.
Proof.
  intros C W O L F W' O' L' F' E.
  destruct (decide (tx_encode c false t = tx_encode c false t')) as [D|D].
  - left. by apply (injective c).
  - right. by exists (tx_encode c false t), (tx_encode c false t').
Qed.

Lemma sig_hash_unique (keccak : bytes -> bytes) c c' t t' : c < 2 ^ 64 -> c' < 2 ^ 64 ->
  well_formed t -> only_own_fields t -> fits c t ->
  well_formed t' -> only_own_fields t' -> fits c' t' ->
  sig_hash keccak c t = sig_hash keccak c' t' ->
  (c = c' /\ t' = with_sig t (t_sig t')) \/ exists a b, a <> b /\ keccak a = keccak b.
Proof.
  intros C C' W O F W' O' F' E.
  destruct (decide (tx_encode c true t = tx_encode c' true t')) as [D|D].
  - left. by apply signed_inj.
  - right. by exists (tx_encode c true t), (tx_encode c' true t').
Qed.

(** ** What decoding accepts *)

Lemma rd_bytes n s o s' : Forall is_byte (CodecModel.rem s) -> rd n s = (o, s') ->
  Forall is_byte (CodecModel.rem s') /\ match o with Some b => Forall is_byte b | None => True end.
Proof.
  destruct s as [b v]. intros F E. apply rd_inv in E. destruct o as [p|].
  - destruct E as (-> & _). cbn in F. rewrite Forall_app in F. cbn. tauto.
  - destruct E as [_ ->]. done.
Qed.

Lemma zeros_bytes n : Forall is_byte (repeat 0 n).
Proof. apply Forall_forall. intros x X. apply elem_of_list_In, repeat_spec in X. subst. unfold is_byte. lia. Qed.

Lemma read_zeroed_bytes n s x s' : Forall is_byte (CodecModel.rem s) -> read_zeroed n s = Ok x s' ->
  Forall is_byte (CodecModel.rem s') /\ Forall is_byte (fst x).
Proof.
  intros F. unfold read_zeroed. destruct (_ <? _); [discriminate|].
  destruct (rd n s) as [[b|] s1] eqn:E; apply rd_bytes in E as [E1 E2]; try done;
    intros H; inversion H; subst; cbn [fst]; [done|]. split; [done|apply zeros_bytes].
Qed.

Lemma read_bytes f :
  (forall s v s', Forall is_byte (CodecModel.rem s) -> read_value f s = Ok v s' ->
     all_bytes v /\ Forall is_byte (CodecModel.rem s')) /\
  (forall n s v s', Forall is_byte (CodecModel.rem s) -> read_array f n s = Ok v s' ->
     all_bytes v /\ Forall is_byte (CodecModel.rem s')) /\
  (forall s l s', Forall is_byte (CodecModel.rem s) -> read_values f s = Ok l s' ->
     Forall all_bytes l /\ Forall is_byte (CodecModel.rem s')).
Proof.
  induction f as [|f (IV & IA & IW)]; [repeat split; intros; discriminate|].
  assert (CB : forall n s v s', Forall is_byte (CodecModel.rem s) -> read_buffer n s = Ok v s' ->
    all_bytes v /\ Forall is_byte (CodecModel.rem s')).
  { intros n s v s' F H. apply bind_ok in H as (x & s1 & H1 & H2).
    apply read_zeroed_bytes in H1 as [H1 H3]; [|done]. inversion H2; subst. done. }
  split; [|split].
  - intros s v s' F H. cbn [read_value] in H. destruct (rd 1 s) as [ob s1] eqn:R.
    apply rd_bytes in R as [R1 R2]; [|done].
    assert (X : is_byte (match ob with Some [x] => x | _ => 0 end)).
    { destruct ob as [[|x [|y l]]|]; try (unfold is_byte; lia). by inversion R2. }
    set (x := match ob with Some [x] => x | _ => 0 end) in *. clearbody x.
    destruct (x <? 128). { inversion H; subst. split; [by repeat constructor|done]. }
    destruct (x <=? 128 + 55); [by eapply CB|].
    destruct (x <? 192).
    { apply bind_ok in H as (y & s2 & H1 & H2). apply read_zeroed_bytes in H1 as [H1 _]; [|done]. by eapply CB. }
    destruct (x <=? 192 + 55); [by eapply IA|].
    apply bind_ok in H as (y & s2 & H1 & H2). apply read_zeroed_bytes in H1 as [H1 _]; [|done]. by eapply IA.
  - intros n s v s' F H. cbn [read_array] in H. destruct (n =? 0); [by inversion H; subst|].
    apply bind_ok in H as (y & s2 & H1 & H2). apply read_zeroed_bytes in H1 as [H1 H3]; [|done].
    destruct (snd y).
    + inversion H2; subst. split; [|done]. apply all_bytes_arr. apply Forall_forall. intros x X.
      apply elem_of_list_In, repeat_spec in X. subst. repeat constructor.
    + destruct (read_values f _) as [l s3| |] eqn:RV; inversion H2; subst. split; [|done].
      apply all_bytes_arr. by eapply IW in RV as [? _].
  - intros s l s' F H. cbn [read_values] in H. destruct (CodecModel.rem s) eqn:R; [inversion H; subst; by rewrite R|].
    rewrite <- R in F. apply bind_ok in H as (y & s2 & H1 & H2). apply IV in H1 as [H1 H3]; [|done].
    apply bind_ok in H2 as (ys & s3 & H2 & H4). apply IW in H2 as [H2 H5]; [|done]. inversion H4; subst. auto.
Qed.

Lemma dbind_ok {A B} (r : dec_result A) (k : A -> dec_result B) b :
  dbind r k = DOk b -> exists a, r = DOk a /\ k a = DOk b.
Proof. destruct r; cbn; try discriminate. eauto. Qed.

Lemma rlp_word_ok n v w : all_bytes v -> rlp_word n v = DOk w -> length w = n /\ Forall is_byte w.
Proof.
  unfold rlp_word. intros A. destruct (Nat.ltb_spec n (length (rlp_data v))); [discriminate|].
  intros E; inversion E; subst. split.
  - rewrite app_length, repeat_length. lia.
  - apply Forall_app. split; [apply zeros_bytes|]. destruct v; [exact A|constructor].
Qed.

Lemma all_bytes_in l x : all_bytes (RArr l) -> In x l -> all_bytes x.
Proof.
  cbn. induction l as [|y l IH]; [done|]. cbn. intros [H1 H2] [->|I]; auto.
Qed.

Lemma value_at_ok v i x : all_bytes v -> value_at v i = DOk x -> all_bytes x.
Proof.
  destruct v as [b|l]; [discriminate|]. cbn [value_at]. intros A. destruct (nth_error l i) eqn:E; [|discriminate].
  intros H; inversion H; subst. apply nth_error_In in E. by eapply all_bytes_in.
Qed.

Lemma dmap_ok {A B} (f : A -> dec_result B) (P : B -> Prop) l r :
  (forall x y, In x l -> f x = DOk y -> P y) -> dmap f l = DOk r -> Forall P r.
Proof.
  revert r. induction l as [|x l IH]; intros r H E; cbn in E; [by inversion E|].
  apply dbind_ok in E as (y & E1 & E). apply dbind_ok in E as (ys & E2 & E). inversion E; subst.
  constructor; [apply (H x); [by left|done]|]. apply IH; [|done]. intros z w Z. apply H. by right.
Qed.

Lemma decode_access_ok v l : all_bytes v -> decode_access v = DOk l -> Forall access_ok l.
Proof.
  destruct v as [b|vs]; cbn [decode_access]; [intros _ E; inversion E; constructor|].
  intros A. apply dmap_ok. intros x y X E. unfold decode_tuple in E.
  pose proof (all_bytes_in _ _ A X) as AX.
  apply dbind_ok in E as (addr & E1 & E). apply dbind_ok in E as (ks & E2 & E).
  apply dbind_ok in E as (keys & E3 & E). inversion E; subst. split.
  - cbn. assert (Z : address (repeat 0 20)) by (split; [done|apply zeros_bytes]).
    destruct x as [b|[|a1 [|a2 [|a3 r]]]]; try (inversion E1; subst; exact Z).
    apply rlp_word_ok in E1; [done|]. apply (all_bytes_in [a1; a2]); [done|by left].
  - cbn. apply value_at_ok in E2; [|done]. destruct ks as [[|kb b]|ks]; cbn in E3; try (inversion E3; constructor).
    eapply dmap_ok; [|exact E3]. intros z w Z. apply rlp_word_ok. by apply (all_bytes_in ks).
Qed.

Lemma decoded c b t : Forall is_byte b -> tx_decode c b = DOk t ->
  well_formed t /\ only_own_fields t /\ legacy_chain c t.
Proof.
  intros F E. unfold tx_decode in E. apply dbind_ok in E as ([ty v] & CD & E). cbn [fst snd] in E.
  assert (A : all_bytes v).
  { unfold check_tx_decode in CD. destruct b as [|x r]; [discriminate|].
    match type of CD with context [let '(_, _) := ?p in _] => destruct p as [ty' body] eqn:S end.
    assert (FB : Forall is_byte body).
    { inversion F; subst. destruct (x =? 1); [by inversion S; subst|]. destruct (x =? 2); by inversion S; subst. }
    destruct (from_buffer c_rlp body) as [[w|] s| |] eqn:B; try discriminate CD.
    destruct (is_valid_rlp_tx ty' w); [|discriminate CD]. inversion CD; subst.
    unfold from_buffer in B. cbn [dec c_rlp CodecModel.rem] in B.
    destruct (read_value _ _) as [w' s'| |] eqn:RV; try discriminate B.
    apply (proj1 (read_bytes _)) in RV as [RV _]; [|done]. destruct (valid s'); inversion B; by subst. }
  assert (W : forall i w, dbind (value_at v i) (rlp_word 32) = DOk w -> word w).
  { intros i w H. apply dbind_ok in H as (x & H1 & H2). apply value_at_ok in H1; [|done]. by apply rlp_word_ok in H2. }
  clear CD F b.
  apply dbind_ok in E as (i & _ & E). apply dbind_ok in E as (nonce & N & E). apply W in N.
  apply dbind_ok in E as ([[[price tip] fee] j] & G & E).
  assert (GW : word price /\ word tip /\ word fee /\
    (if is_dynamic ty then price = zero_word else tip = zero_word /\ fee = zero_word)).
  { pose proof EvmMathProofs.zero_word as Z. destruct (is_dynamic ty).
    - apply dbind_ok in G as (tip' & T & G). apply dbind_ok in G as (fee' & T2 & G). inversion G; subst.
      apply W in T, T2. done.
    - apply dbind_ok in G as (price' & T & G). inversion G; subst. apply W in T. done. }
  destruct GW as (GP & GT & GF & GO). clear G.
  apply dbind_ok in E as (limit & L & E). apply W in L.
  apply dbind_ok in E as (to & T & E). apply dbind_ok in E as (value & V & E). apply W in V.
  apply dbind_ok in E as (input & I & E). apply dbind_ok in E as ([al k] & AL & E). cbn [fst snd] in E.
  apply dbind_ok in E as (sv & SV & E). apply W in SV. apply dbind_ok in E as ([] & CK & E).
  apply dbind_ok in E as (sr & SR & E). apply W in SR. apply dbind_ok in E as (ss & SS & E). apply W in SS.
  inversion E; subst. clear E.
  assert (TW : match to with Some a => address a | None => True end).
  { apply dbind_ok in T as (x & T1 & T2). apply value_at_ok in T1; [|done]. unfold decode_to in T2.
    destruct (_ =? 0); [by inversion T2|]. apply dbind_ok in T2 as (a & T2 & T3). inversion T3; subst.
    by apply rlp_word_ok in T2. }
  assert (IW : Forall is_byte input).
  { apply dbind_ok in I as (x & I1 & I2). apply value_at_ok in I1; [|done].
    destruct x as [b|[|]]; inversion I2; subst; [done|constructor]. }
  assert (AW : Forall access_ok al /\ (typed ty = false -> al = [])).
  { destruct (typed ty).
    - apply dbind_ok in AL as (a & AL & Q). inversion Q; subst. apply dbind_ok in AL as (x & A1 & A2).
      apply value_at_ok in A1; [|done]. apply decode_access_ok in A2; [|done]. split; [done|discriminate].
    - inversion AL; subst. split; [constructor|done]. }
  split; [|split].
  - unfold well_formed.
    cbn [t_type t_to t_value t_nonce t_gas_price t_gas_limit t_gas_tip_cap t_gas_fee_cap t_input t_access t_sig s_r s_s s_v].
    tauto.
  - unfold only_own_fields.
    cbn [t_type t_to t_value t_nonce t_gas_price t_gas_limit t_gas_tip_cap t_gas_fee_cap t_input t_access t_sig s_r s_s s_v].
    destruct AW as [_ AW]. destruct ty; cbn in *; [|done|done]. destruct GO. split; [by apply AW|done].
  - unfold legacy_chain. cbn [t_type t_sig s_v]. intros ->. cbn in CK. rewrite to_uint64_ok in CK by done.
    unfold eip155_v_offset in CK.
    destruct (N.leb_spec 35 (number sv mod 2 ^ 64)); [|by left]. right. cbn in CK.
    destruct (N.eqb_spec ((number sv mod 2 ^ 64 - 35) / 2) c) as [Q|Q]; [exact Q|discriminate].
Qed.

Lemma dbind_fuel {A B} (r : dec_result A) (k : A -> dec_result B) :
  r <> DNoFuel -> (forall a, k a <> DNoFuel) -> dbind r k <> DNoFuel.
Proof. destruct r; cbn; auto; discriminate. Qed.

Lemma dmap_fuel {A B} (f : A -> dec_result B) l : (forall x, f x <> DNoFuel) -> dmap f l <> DNoFuel.
Proof.
  intros H. induction l as [|x l IH]; cbn; [discriminate|]. apply dbind_fuel; [apply H|]. intros y.
  apply dbind_fuel; [exact IH|]. discriminate.
Qed.

Lemma rlp_word_fuel n v : rlp_word n v <> DNoFuel.
Proof. unfold rlp_word. destruct (_ <? _)%nat; discriminate. Qed.

Lemma value_at_fuel v i : value_at v i <> DNoFuel.
Proof. destruct v; cbn; [discriminate|]. destruct (nth_error _ _); discriminate. Qed.

Lemma decode_access_fuel v : decode_access v <> DNoFuel.
Proof.
  destruct v as [b|l]; cbn; [discriminate|]. apply dmap_fuel. intros x. unfold decode_tuple.
  apply dbind_fuel.
  { destruct x as [b|[|a1 [|a2 [|a3 r]]]]; try discriminate. apply rlp_word_fuel. }
  intros a. apply dbind_fuel; [apply value_at_fuel|]. intros y. apply dbind_fuel; [|discriminate].
  destruct y as [[|]|ks]; try discriminate. apply dmap_fuel, rlp_word_fuel.
Qed.

Lemma check_fuel b : check_tx_decode b <> DNoFuel.
Proof.
  unfold check_tx_decode. destruct b as [|x r]; [discriminate|].
  match goal with |- context [let '(_, _) := ?p in _] => destruct p as [ty body] end.
  unfold from_buffer. pose proof (l_fuel _ lawful_rlp (Dst body true)) as F.
  destruct (dec c_rlp (Dst body true)) as [w s| |]; try done.
  destruct (valid s); [|discriminate]. destruct (is_valid_rlp_tx ty w); discriminate.
Qed.

Lemma decode_terminates c b : tx_decode c b <> DNoFuel.
Proof.
  unfold tx_decode.
  assert (W : forall v i, dbind (value_at v i) (rlp_word 32) <> DNoFuel).
  { intros v i. apply dbind_fuel; [apply value_at_fuel|apply rlp_word_fuel]. }
  apply dbind_fuel; [apply check_fuel|]. intros [ty v]. cbn [fst snd].
  apply dbind_fuel. { destruct (typed ty); [|discriminate]. apply dbind_fuel; [apply W|]. intros a. destruct (_ =? _); discriminate. }
  intros i. apply dbind_fuel; [apply W|]. intros nonce.
  apply dbind_fuel.
  { destruct (is_dynamic ty); apply dbind_fuel; try apply W; intros ?; [|discriminate].
    apply dbind_fuel; [apply W|discriminate]. }
  intros [[[price tip] fee] j]. apply dbind_fuel; [apply W|]. intros limit.
  apply dbind_fuel.
  { apply dbind_fuel; [apply value_at_fuel|]. intros x. unfold decode_to. destruct (_ =? _); [discriminate|].
    apply dbind_fuel; [apply rlp_word_fuel|discriminate]. }
  intros to. apply dbind_fuel; [apply W|]. intros value. apply dbind_fuel.
  { apply dbind_fuel; [apply value_at_fuel|]. intros [?|[|]]; discriminate. }
  intros input. apply dbind_fuel.
  { destruct (typed ty); [|discriminate]. apply dbind_fuel; [|discriminate].
    apply dbind_fuel; [apply value_at_fuel|apply decode_access_fuel]. }
  intros [al k]. cbn [fst snd]. apply dbind_fuel; [apply W|]. intros sv. apply dbind_fuel.
  { destruct (typed ty); [discriminate|]. destruct (_ && _); discriminate. }
  intros _. apply dbind_fuel; [apply W|]. intros sr. apply dbind_fuel; [apply W|]. discriminate.
Qed.

(** ** Signatures *)

Lemma split65 (d : bytes) : length d = 65%nat ->
  d = firstn 32 d ++ firstn 32 (skipn 32 d) ++ [nth 64 d 0].
Proof.
  intros L. rewrite <- (firstn_skipn 32 d) at 1. f_equal.
  rewrite <- (firstn_skipn 32 (skipn 32 d)) at 1. f_equal.
  rewrite drop_drop. change (32 + 32)%nat with 64%nat.
  destruct (skipn 64 d) as [|x [|y r]] eqn:E.
  - apply (f_equal length) in E. rewrite skipn_length in E. cbn in E. lia.
  - f_equal. rewrite <- (firstn_skipn 64 d). rewrite E, app_nth2; rewrite firstn_length; [|lia].
    by replace (64 - 64 `min` length d)%nat with 0%nat by lia.
  - apply (f_equal length) in E. rewrite skipn_length in E. cbn in E. lia.
Qed.

Lemma two64_M n : n < two64 -> n < 2 ^ 256.
Proof. intros H. eapply N.lt_trans; [exact H|]. reflexivity. Qed.

Lemma to_uint64_u256 n : n < two64 -> to_uint64 (u256 n) = n.
Proof.
  intros H. rewrite to_uint64_ok by apply u256_word. rewrite u256_ok by by apply two64_M.
  by apply N.mod_small.
Qed.

Lemma nth_byte d i : Forall is_byte d -> nth i d 0 < 256.
Proof.
  intros F. destruct (Nat.lt_ge_cases i (length d)) as [H|H].
  - rewrite Forall_forall in F. apply F. apply elem_of_list_In, nth_In. done.
  - rewrite nth_overflow by done. lia.
Qed.

Lemma rebuild d v : recoverable d -> v = recovery_id d ->
  Some (rev (rev (firstn 32 d)) ++ rev (rev (firstn 32 (skipn 32 d))) ++ [v mod 256]) = Some d.
Proof.
  intros [L F] ->. rewrite !rev_involutive. f_equal. rewrite N.mod_small by by apply nth_byte.
  symmetry. by apply split65.
Qed.

Lemma sig_round_trip ty c d : recoverable d ->
  typed ty = true \/ (0 < recovery_id d + 2 * c /\ recovery_id d + 35 + 2 * c < two64) ->
  evm_to_sig ty c (sig_to_evm ty c d) = Some d.
Proof.
  intros R H. pose proof R as [L F]. pose proof (nth_byte d 64 F) as B.
  unfold evm_to_sig, sig_to_evm. cbn [s_v s_r s_s].
  destruct (typed ty) eqn:T.
  - rewrite to_uint64_u256 by (unfold two64; lia). by apply rebuild.
  - destruct H as [H|[H1 H2]]; [done|]. unfold recovery_id, eip155_v_offset in *.
    rewrite (N.mod_small (c * 2)) by lia.
    rewrite N.mod_small by lia. rewrite to_uint64_u256 by lia.
    destruct (N.ltb_spec 35 (nth 64 d 0 + 35 + c * 2)); [|lia].
    replace (nth 64 d 0 + 35 + c * 2 - 35 + (two64 - c * 2)) with (nth 64 d 0 + 1 * two64) by lia.
    rewrite N.mod_add, N.mod_small by (unfold two64 in *; lia).
    destruct (N.ltb_spec 255 (nth 64 d 0)); [lia|]. by apply rebuild.
Qed.

(** The hash that is signed does not depend on the signature. *)
Lemma sig_hash_same (keccak : bytes -> bytes) c t s : sig_hash keccak c (with_sig t s) = sig_hash keccak c t.
Proof. reflexivity. Qed.

Lemma signer_recovered (keccak : bytes -> bytes) recover c t d : recoverable d ->
  typed (t_type t) = true \/ (0 < recovery_id d + 2 * c /\ recovery_id d + 35 + 2 * c < two64) ->
  check_signature keccak recover c (with_sig t (sig_to_evm (t_type t) c d)) =
  recover d (sig_hash keccak c t).
Proof.
  intros R H. unfold check_signature. cbn [with_sig t_type t_sig]. rewrite sig_round_trip by done. done.
Qed.

(** ** Numbers as text *)

Lemma byte_hex_zero x : is_byte x -> x <> 0 ->
  exists a b, byte_hex x = [a; b] /\ (a = 48 -> b <> 48).
Proof.
  intros B NZ. exists (digit (x / 16)), (digit (x mod 16)). split; [done|].
  intros A B'. apply NZ.
  assert (x / 16 < 16) by (apply N.div_lt_upper_bound; unfold is_byte in B; lia).
  pose proof (N.mod_lt x 16 ltac:(done)). pose proof (N.div_mod x 16 ltac:(done)).
  unfold digit in *. destruct (N.ltb_spec (x / 16) 10), (N.ltb_spec (x mod 16) 10); lia.
Qed.

Lemma trimmed_body b : drop_zeros b <> [] -> Forall is_byte b -> exists t,
  to_hex_trimmed ox b = ox ++ t /\ t <> [] /\
  ((to_hex (drop_zeros b) = t /\ N.of_nat (length t) mod 2 = 0) \/
   (to_hex (drop_zeros b) = 48 :: t /\ N.of_nat (length t) mod 2 <> 0)).
Proof.
  intros NE F. pose proof (drop_zeros_forall _ b F) as FD.
  destruct (drop_zeros_spec b) as (k & _ & HD).
  unfold to_hex_trimmed. destruct (drop_zeros b) as [|x r] eqn:D; [done|].
  cbn [hd] in HD. inversion FD as [|? ? BX FR]; subst.
  pose proof (to_hex_length (x :: r)) as L.
  assert (TH : to_hex (x :: r) = byte_hex x ++ to_hex r) by reflexivity.
  destruct (byte_hex_zero x BX HD) as (a & c & AC & Z). rewrite AC in TH. cbn [app] in TH.
  rewrite TH in *. cbn [length] in L. destruct (N.eqb_spec a 48) as [->|NA].
  - exists (c :: to_hex r). split; [done|]. split; [done|]. right. split; [done|].
    cbn [length]. intros E. apply even_half in E as [q E]. lia.
  - exists (a :: c :: to_hex r). split; [done|]. split; [done|]. left. split; [done|].
    cbn [length]. replace (S (S (length (to_hex r)))) with (2 * S (length r))%nat by (rewrite to_hex_length; lia).
    apply even_twice.
Qed.

Lemma hex_back b : word b -> uint256_from_hex (to_hex_trimmed ox b) = Some b.
Proof.
  intros [L F]. unfold uint256_from_hex.
  destruct (decide (drop_zeros b = [])) as [Z|NE].
  - unfold to_hex_trimmed. rewrite Z.
    assert (E : b = repeat 0 32).
    { rewrite <- (drop_zeros_restore b), Z, app_nil_r, L. done. }
    subst b. reflexivity.
  - destruct (trimmed_body b NE F) as (t & -> & TN & T).
    unfold from_hex_prefixed. rewrite starts_with_app, drop_app.
    assert (G : (if negb (N.of_nat (length t) mod 2 =? 0) then 48 :: t else t) = to_hex (drop_zeros b)).
    { destruct T as [[-> E]|[-> E]].
      - by rewrite E.
      - destruct (N.eqb_spec (N.of_nat (length t) mod 2) 0); [done|]. done. }
    match goal with |- context [from_hex ?x] => replace x with (to_hex (drop_zeros b)) by (symmetry; exact G) end. pose proof (drop_zeros_length b) as DL.
    assert (R : from_hex (to_hex (drop_zeros b)) = Some (drop_zeros b)).
    { apply (proj1 (roundtrip _ (drop_zeros_forall _ b F))). split; [done|]. lia. }
    rewrite R. destruct (Nat.ltb_spec 32 (length (drop_zeros b))); [lia|].
    rewrite <- L, drop_zeros_restore. done.
Qed.

Lemma hex_loop_length s b : hex_loop s = Some b -> (2 * length b <= length s)%nat.
Proof.
  revert b. induction s as [s IH] using (induction_ltof1 _ (@length N)). unfold ltof in IH. intros b.
  destruct s as [|a [|c s]]; cbn [hex_loop]; try (intros E; inversion E; cbn; lia).
  destruct (read_hex [a; c]); [|discriminate]. destruct (hex_loop s) as [bs|] eqn:H; [|discriminate].
  intros E; inversion E; subst. apply IH in H; [|cbn; lia]. cbn [length] in *. lia.
Qed.

Lemma json_small b : word b -> number b < 2 ^ 248 ->
  uint256_or_zero (Some (to_hex_trimmed ox b)) = zero_word.
Proof.
  intros [L F] H.
  assert (DL : (length (drop_zeros b) <= 31)%nat).
  { pose proof (drop_zeros_length b) as D. destruct (Nat.le_gt_cases (length (drop_zeros b)) 31) as [?|G]; [done|].
    exfalso. pose proof (drop_zeros_value b) as V. rewrite <- !number_be in V.
    destruct (drop_zeros_spec b) as (k & _ & HD). destruct (drop_zeros b) as [|x r]; [cbn in G; lia|].
    cbn [hd] in HD. cbn [number] in V. cbn [length] in *.
    assert (LR : len r = 31) by (unfold len; lia). rewrite LR in V. change (256 ^ 31) with (2 ^ 248) in V. nia. }
  unfold uint256_or_zero, uint256_from_json, buffer_from_json.
  destruct (decide (drop_zeros b = [])) as [Z|NE].
  { unfold to_hex_trimmed. rewrite Z. reflexivity. }
  destruct (trimmed_body b NE F) as (t & E & TN & T).
  assert (TL : (length t <= 62)%nat).
  { pose proof (to_hex_length (drop_zeros b)) as HL. destruct T as [[T _]|[T _]]; rewrite T in HL; cbn [length] in HL; lia. }
  rewrite E. destruct (Nat.ltb_spec 2 (length (ox ++ t))); [|done].
  change (skipn 2 (ox ++ t)) with t. destruct (from_hex t) as [x|] eqn:X; [|done].
  unfold from_hex in X. destruct (_ || _); [discriminate|]. apply hex_loop_length in X.
  destruct (Nat.leb_spec 32 (length x)); [lia|]. done.
Qed.

Lemma sig_round_trip' ty c d : recoverable d -> v_unambiguous ty c d ->
  evm_to_sig ty c (sig_to_evm ty c d) = Some d.
Proof.
  intros R U. apply sig_round_trip; [done|]. destruct ty; [|by left|by left]. right. by apply U.
Qed.

Lemma signer_recovered' (keccak : bytes -> bytes) sign recover addr c t key :
  recovers sign recover addr -> v_unambiguous (t_type t) c (sign key (sig_hash keccak c t)) ->
  check_signature keccak recover c
    (with_sig t (sig_to_evm (t_type t) c (sign key (sig_hash keccak c t)))) = Some (addr key).
Proof.
  intros R U. destruct (R key (sig_hash keccak c t)) as [R1 R2].
  unfold check_signature. cbn [with_sig t_type t_sig]. rewrite sig_round_trip' by done. exact R2.
Qed.
