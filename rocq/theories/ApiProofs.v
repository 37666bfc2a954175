(** Proofs for C86 and C87. *)
From Coq Require Import NArith ZArith List Bool String Lia ZifyBool ZifyNat ZifyN.
From stdpp Require Import base option list.
From Verif Require Import Base CodecModel CodecSpec CodecProofs MsgModel EvmMathModel EvmMathSpec EvmMathProofs HexModel HexSpec
  HexProofs RlpModel EvmTxModel EvmTxProofs EvmLogModel EvmLogSpec EvmLogQuery ApiModel ApiSpec WireProofs.
Import ListNotations.
Open Scope N_scope.

Local Notation "'lit' s" := (lit s%string) (at level 9).

Arguments from_hex : simpl never.
Arguments tx_decode : simpl never.
Arguments uint256_from_hex : simpl never.
Arguments to_hex : simpl never.

Lemma data_back b : data_ok b -> from_hex (to_hex b) = Some b.
Proof. intros (F & N & L). apply (roundtrip b F). now split. Qed.

Lemma sized_data n b : sized (S n) b -> N.of_nat (S n) <= 51200 -> data_ok b.
Proof.
  intros [F L] B. split; [exact F|]. split; [intros ->; discriminate L|]. unfold len. now rewrite L.
Qed.

Lemma substr2_hex b : substr2 (hex_text b) = Some (to_hex b).
Proof. reflexivity. Qed.

Lemma buffer_hex b : data_ok b -> buffer_from_json (Some (hex_text b)) = Some b.
Proof.
  intros D. unfold buffer_from_json, hex_text. cbn [ox app length skipn].
  destruct D as (F & N & L) eqn:E. destruct b as [|x b]; [now destruct N|].
  rewrite to_hex_length. cbn [length]. replace (2 <? S (S (2 * S (length b))))%nat with true by (symmetry; apply Nat.ltb_lt; lia).
  apply data_back. exact (conj F (conj N L)).
Qed.

Lemma address_hex a : sized 20 a -> address_of (JStr (hex_text a)) = Some (be_value a).
Proof.
  intros S. unfold address_of. cbn [str]. rewrite buffer_hex by (apply (sized_data 19); [exact S|lia]).
  destruct S as [F L]. rewrite L. cbn [Nat.leb]. now rewrite firstn_all2 by lia.
Qed.

Lemma word_hex k : sized 32 k -> word_from_hex (hex_text k) = Some k.
Proof.
  intros S. unfold word_from_hex. change (hex_text k) with (to_hex_prefixed ox k).
  rewrite prefixed_same, data_back by (apply (sized_data 31); [exact S|lia]).
  destruct S as [_ L]. now rewrite L.
Qed.

Lemma block_back n : n < 2 ^ 64 -> uint256_from_hex (to_hex_trimmed ox (u256 n)) = Some (u256 n).
Proof. intros _. exact (hex_back (u256 n) (u256_word n)). Qed.

Lemma trimmed_not_latest b : text_eqb (to_hex_trimmed ox b) (lit "latest") = false.
Proof.
  unfold text_eqb. apply bool_decide_eq_false. unfold to_hex_trimmed.
  destruct (drop_zeros b); intros E; apply (f_equal (fun l => nth 0 l 0)) in E; discriminate E.
Qed.

Section S.
Variable chain_id highest : N.
Variable keccak : bytes -> bytes.
Variable num_text : json -> text.

Lemma read_key_hex bad un f k b r : data_ok b ->
  read_key bad un f k (JArr (JStr (hex_text b) :: r)) = start f (RBytes b) true k.
Proof. intros D. unfold read_key. rewrite substr2_hex, data_back by exact D. reflexivity. Qed.

Lemma be_value_back n b : sized n b -> be_bytes n (be_value b) = b.
Proof.
  intros [F L]. unfold be_bytes, be_value. rewrite <- L, <- (rev_length b).
  rewrite le_bytes_value; [apply rev_involutive|]. apply Forall_rev. exact F.
Qed.

Lemma block_of_named s n : names_block highest s n -> block_of highest s = Some n.
Proof.
  intros [[-> ->]|[B ->]]; unfold block_of.
  - reflexivity.
  - rewrite trimmed_not_latest, block_back by exact B. cbn. f_equal. apply u64_there_and_back. exact B.
Qed.

Lemma fetch_named k s n : names_block highest s n ->
  (if text_eqb s (lit "latest") then start FBlock (RBytes (u256 highest)) true k
   else match uint256_from_hex s with
        | None => error_refuse invalid_block_parameter
        | Some b => start FBlock (RBytes b) true k
        end) = start FBlock (RBytes (u256 n)) true k.
Proof.
  intros [[-> ->]|[B ->]].
  - reflexivity.
  - now rewrite trimmed_not_latest, block_back by exact B.
Qed.

Lemma addrs_hex l : Forall (sized 20) l ->
  mapM address_of (map (fun a => JStr (hex_text a)) l) = Some (map be_value l).
Proof.
  intros F. apply mapM_Some. induction F as [|a l S F IH]; constructor; [apply address_hex; exact S|exact IH].
Qed.
Lemma strings_hex l :
  mapM (as_string num_text) (map (fun a => JStr (hex_text a)) l) = Some (map hex_text l).
Proof. apply mapM_Some. induction l as [|a l IH]; constructor; [reflexivity|exact IH]. Qed.
Lemma words_hex l : Forall (sized 32) l -> mapM word_from_hex (map hex_text l) = Some l.
Proof.
  intros F. apply mapM_Some. induction F as [|a l S F IH]; constructor; [apply word_hex; exact S|exact IH].
Qed.

Lemma handle_documented m p a : documented chain_id highest keccak m p a ->
  handle chain_id keccak num_text highest m p =
  match a with Now r => Done [r] None true | Later r => Done [] (Some r) true end.
Proof.
  intros D. destruct D as
    [b t r D T|b t r D T|a r S|a r S|a r S|a k r S K|i r S|i r S|s n d r B|s n B|s n i r B
    |l addrs topics from to f t r A T NB FB TB SA ST BF BT NA NT LF LT SM|l r C|l r C|b r D|m p a C]; cbn [handle].
  - unfold handle_send_raw, raw_tx. cbn [elem nth str]. rewrite substr2_hex, data_back, T by exact D. reflexivity.
  - unfold handle_decode_raw, raw_tx. cbn [elem nth str]. rewrite substr2_hex, data_back, T by exact D. reflexivity.
  - apply read_key_hex. apply (sized_data 19); [exact S|lia].
  - apply read_key_hex. apply (sized_data 19); [exact S|lia].
  - apply read_key_hex. apply (sized_data 19); [exact S|lia].
  - unfold handle_storage. rewrite address_hex, word_hex, be_value_back by assumption. reflexivity.
  - apply read_key_hex. apply (sized_data 31); [exact S|lia].
  - apply read_key_hex. apply (sized_data 31); [exact S|lia].
  - unfold handle_block. cbn [elem nth as_bool]. unfold grow. cbn [length]. cbn [app].
    unfold fetch_block. exact (fetch_named (KBlock d) s n B).
  - unfold handle_block_count, fetch_block. exact (fetch_named KBlockCount s n B).
  - unfold handle_block_tx, fetch_block. exact (fetch_named (KBlockTx i) s n B).
  - unfold handle_logs. cbn zeta. unfold query_addrs, query_topics, query_blocks. unfold field.
    rewrite A, T, NB, FB, TB. cbn [default id from_option].
    rewrite addrs_hex, strings_hex, words_hex by assumption.
    rewrite (block_of_named from f BF), (block_of_named to t BT).
    destruct addrs as [|a addrs]; [now destruct NA|]. destruct topics as [|u topics]; [now destruct NT|].
    cbn [map].
    set (q := Query _ _ _ _).
    assert (len (q_addrs q) = len (a :: addrs)) as EL by (subst q; unfold len; cbn [q_addrs length]; now rewrite map_length).
    rewrite check_range_small; rewrite ?EL; subst q; cbn [q_from q_to]; [|exact LF|exact LT|exact SM].
    destruct (t <? f); [reflexivity|]. destruct (100 <? _); reflexivity.
  - unfold handle_call, handle_tx, tx_json_ok. unfold field. destruct C as [->|(z & -> & Z)]; cbn [default id from_option is_numeric as_int].
    + reflexivity.
    + replace ((- 2 ^ 31 <=? z) && (z <? 2 ^ 31))%Z with true; [reflexivity|]. lia.
  - unfold handle_send, handle_tx, tx_json_ok. unfold field. destruct C as [->|(z & -> & Z)]; cbn [default id from_option is_numeric as_int].
    + reflexivity.
    + replace ((- 2 ^ 31 <=? z) && (z <? 2 ^ 31))%Z with true; [reflexivity|]. lia.
  - unfold handle_sha3. rewrite buffer_hex by exact D. reflexivity.
  - destruct m; cbn in C |- *; try discriminate C; injection C as <-; reflexivity.
Qed.

Lemma serve_request body name p n : request_is body name p n ->
  serve chain_id keccak num_text highest (Some body) =
  match handle chain_id keccak num_text highest (find_method methods name) p with
  | Threw => Ended
  | Undef => Wild
  | Done rs r ret => Served (map (SReply n) rs ++ (if ret then [] else [SBad])) (option_map (pair n) r)
  end.
Proof.
  intros (l & -> & M & P & I & B). unfold serve, is_member, field. rewrite M, P, I. cbn [default id from_option].
  replace (uint64_or_zero (JInt (Z.of_N n))) with n; [reflexivity|].
  unfold uint64_or_zero. replace ((0 <=? Z.of_N n) && (Z.of_N n <? 2 ^ 64))%Z with true by lia. lia.
Qed.
End S.

Lemma table_found : Forall (fun nm => find_method methods (lit (fst nm)) = snd nm) interface.
Proof. cbv [interface map app]. repeat (apply Forall_cons; split; [vm_compute; reflexivity|]). apply Forall_nil. exact I. Qed.
Lemma table_complete : Forall (fun nm => In nm interface) methods.
Proof.
  unfold methods. repeat (apply Forall_cons; split; [cbv [interface map app In]; tauto|]). apply Forall_nil. exact I.
Qed.

Lemma name_found name m : In (name, m) interface -> find_method methods (lit name) = m.
Proof.
  intros H. pose proof (proj1 (List.Forall_forall _ _) table_found) as F. exact (F (name, m) H).
Qed.

Lemma name_unknown name : Forall (fun nm => lit (fst nm) <> name) interface ->
  find_method methods name = MRefused unknown_method.
Proof.
  intros F. assert (Forall (fun nm => lit (fst nm) <> name) methods) as G.
  { apply List.Forall_forall. intros nm H. apply (proj1 (List.Forall_forall _ _) F).
    exact (proj1 (List.Forall_forall _ _) table_complete nm H). }
  revert G. clear F. induction methods as [|[n m] l IH]; [reflexivity|]. intros F. apply Forall_cons in F as [H F]. cbn [find_method].
  unfold text_eqb. rewrite bool_decide_eq_false_2 by exact H. exact (IH F).
Qed.

Lemma serve_documented chain highest keccak num_text body name m p a id :
  request_is body (lit name) p id -> In (name, m) interface ->
  documented chain highest keccak m p a ->
  serve chain keccak num_text highest (Some body) = responds id a.
Proof.
  intros R H D. rewrite (serve_request chain highest keccak num_text body _ p id R), (name_found name m H).
  rewrite (handle_documented chain highest keccak num_text m p a D). destruct a; reflexivity.
Qed.

Lemma serve_unknown chain highest keccak num_text body name p id :
  request_is body name p id -> Forall (fun nm => lit (fst nm) <> name) interface ->
  serve chain keccak num_text highest (Some body) = Served [SReply id (Error unknown_method)] None.
Proof.
  intros R H. rewrite (serve_request chain highest keccak num_text body _ p id R), (name_unknown name H). reflexivity.
Qed.

(** A handler's replies. *)
Definition proper (o : outcome) : Prop :=
  match o with
  | Done rs r ret =>
      (exists x, rs = [x] /\ r = None /\ ret = true) \/ (rs = [] /\ (exists x, r = Some x) /\ ret = true) \/
      (rs = [] /\ r = None /\ ret = false) \/ (exists c, rs = [Error c] /\ r = None /\ ret = false)
  | _ => True
  end.
Lemma proper_reply1 p : proper (reply1 p). Proof. left. eauto. Qed.
Lemma proper_error1 c : proper (error1 c). Proof. left. eauto. Qed.
Lemma proper_refuse : proper refuse. Proof. right. right. left. auto. Qed.
Lemma proper_error_refuse c : proper (error_refuse c). Proof. right. right. right. eauto. Qed.
Lemma proper_start f p r k : proper (start f p r k). Proof. right. left. eauto. Qed.
Lemma proper_threw : proper Threw. Proof. exact I. Qed.
Lemma proper_undef : proper Undef. Proof. exact I. Qed.
Global Hint Resolve proper_reply1 proper_error1 proper_refuse proper_error_refuse proper_start proper_threw proper_undef : proper.

Ltac proper_cases :=
  repeat match goal with
  | |- proper (match ?x with _ => _ end) => destruct x
  | |- proper (if ?x then _ else _) => destruct x
  end; auto with proper.

Lemma handle_proper chain keccak num_text highest m p : proper (handle chain keccak num_text highest m p).
Proof.
  destruct m; cbn [handle]; auto with proper.
  - unfold handle_send_raw. proper_cases.
  - unfold handle_send, handle_tx. proper_cases.
  - unfold handle_count, read_key. proper_cases.
  - unfold handle_call, handle_tx. proper_cases.
  - unfold handle_code, read_key. proper_cases.
  - unfold handle_balance, read_key. proper_cases.
  - unfold handle_tx_by_hash, read_key. proper_cases.
  - unfold handle_receipt, read_key. proper_cases.
  - unfold handle_block, fetch_block. proper_cases.
  - unfold handle_block_count, fetch_block. proper_cases.
  - unfold handle_block_tx, fetch_block. proper_cases.
  - unfold handle_fee_history. cbn zeta. proper_cases.
  - unfold handle_logs. cbn zeta. proper_cases.
  - unfold handle_storage. proper_cases.
  - unfold handle_decode_raw. proper_cases.
  - unfold handle_sha3. proper_cases.
Qed.

Lemma serve_once chain keccak num_text highest body now later :
  serve chain keccak num_text highest body = Served now later ->
  (length now + match later with Some _ => 1 | None => 0 end = 1)%nat \/
  (exists id c, now = [SReply id (Error c); SBad] /\ later = None).
Proof.
  unfold serve. destruct body as [req|]; [|intros [= <- <-]; left; reflexivity].
  destruct (is_member req (lit "method")) as [[|]|]; [|intros [= <- <-]; left; reflexivity|discriminate].
  destruct (field req (lit "method")) as [[| | | |name| |]|]; try (intros [= <- <-]; left; reflexivity).
  set (id := uint64_or_zero _). set (p := default JNull (field req (lit "params"))).
  pose proof (handle_proper chain keccak num_text highest (find_method methods name) p) as H.
  destruct (handle _ _ _ _ _ _) as [| |rs r ret]; try discriminate.
  intros [= <- <-]. destruct H as [(x & -> & -> & ->)|[(-> & (x & ->) & ->)|[(-> & -> & ->)|(c & -> & -> & ->)]]].
  - left. reflexivity.
  - left. reflexivity.
  - left. reflexivity.
  - right. exists id, c. split; reflexivity.
Qed.

Lemma serve_id chain keccak num_text highest l n now later :
  assoc l (lit "id") = Some (JInt (Z.of_N n)) -> n < 2 ^ 64 ->
  serve chain keccak num_text highest (Some (JObj l)) = Served now later ->
  Forall (fun s => match s with SReply i _ => i = n | SBad => True end) now /\
  (forall i r, later = Some (i, r) -> i = n).
Proof.
  intros I B. unfold serve. cbn [is_member field]. rewrite I. cbn [default id from_option].
  replace (uint64_or_zero (JInt (Z.of_N n))) with n.
  2: { unfold uint64_or_zero. replace ((0 <=? Z.of_N n) && (Z.of_N n <? 2 ^ 64))%Z with true by lia. lia. }
  assert (Bad : Served [SBad] None = Served now later ->
    Forall (fun s => match s with SReply i _ => i = n | SBad => True end) now /\
    (forall i r, later = Some (i, r) -> i = n)).
  { intros [= <- <-]. split; [|discriminate]. repeat constructor. }
  destruct (assoc l (lit "method")) as [j|]; [|exact Bad]. cbn [default id from_option].
  destruct j as [| | | |name| |]; try exact Bad.
  destruct (handle _ _ _ _ _ _) as [| |rs r ret]; try discriminate.
  intros [= <- <-]. split.
  - apply Forall_app. split.
    + clear Bad. induction rs; cbn [map]; constructor; [reflexivity|assumption].
    + destruct ret; repeat constructor.
  - intros i x E. destruct r; [|discriminate E]. now injection E as <- _.
Qed.

Lemma serve_malformed chain keccak num_text highest body :
  body = None \/ body = Some JNull \/
  (exists l, body = Some (JObj l) /\ forall s, assoc l (lit "method") <> Some (JStr s)) ->
  serve chain keccak num_text highest body = Served [SBad] None.
Proof.
  intros [->|[->|(l & -> & H)]]; [reflexivity|reflexivity|]. unfold serve, is_member, field.
  destruct (assoc l (lit "method")) as [[| | | |s| |]|]; cbn [default id from_option]; try reflexivity.
  now destruct (H s).
Qed.

(** ** C87 *)

Lemma bytes_sized n v : sized n (be_bytes n v).
Proof. split; [apply be_bytes_is_byte|apply be_bytes_length]. Qed.

Lemma asks_reads sha chain highest keccak num_text m p pl k : asks m p pl k ->
  exists f b, handle chain keccak num_text highest m p = Done [] (Some (Run f (RBytes b) true k)) true /\
    read_key_of f b = Some (key sha pl).
Proof.
  intros A. destruct A as [a r|a r|a r|a w r|i r|i r].
  - exists FAccount, (be_bytes 20 a). split; [|reflexivity].
    rewrite (handle_documented chain highest keccak num_text _ _ _ (d_balance _ _ _ _ r (bytes_sized 20 a))). reflexivity.
  - exists FAccount, (be_bytes 20 a). split; [|reflexivity].
    rewrite (handle_documented chain highest keccak num_text _ _ _ (d_count _ _ _ _ r (bytes_sized 20 a))). reflexivity.
  - exists FCode, (be_bytes 20 a). split.
    + rewrite (handle_documented chain highest keccak num_text _ _ _ (d_code _ _ _ _ r (bytes_sized 20 a))). reflexivity.
    + unfold read_key_of. rewrite be_bytes_length. reflexivity.
  - exists FStorage, (be_bytes 20 a ++ be_bytes 32 w). split; [|reflexivity].
    rewrite (handle_documented chain highest keccak num_text _ _ _
              (d_storage _ _ _ _ _ r (bytes_sized 20 a) (bytes_sized 32 w))). reflexivity.
  - exists FReceipt, (be_bytes 32 i). split; [|reflexivity].
    rewrite (handle_documented chain highest keccak num_text _ _ _ (d_receipt _ _ _ _ r (bytes_sized 32 i))). reflexivity.
  - exists FReceipt, (be_bytes 32 i). split; [|reflexivity].
    rewrite (handle_documented chain highest keccak num_text _ _ _ (d_tx _ _ _ _ r (bytes_sized 32 i))). reflexivity.
Qed.

Lemma shown_back b : word b -> shows (to_hex_trimmed ox b) (number b).
Proof. intros W. exists b. split; [exact (hex_back b W)|reflexivity]. Qed.

Lemma u256_number n : n < 2 ^ 256 -> number (u256 n) = n.
Proof. intros H. rewrite number_be. unfold u256. apply be_value_bytes. exact H. Qed.

Lemma account_read bal nonce : bal < 2 ^ 256 -> nonce < 2 ^ 256 ->
  exists x r s, encoding c_evm_account (bal, nonce) = x :: r /\
    from_buffer c_evm_account (x :: r) = Ok (Some (bal, nonce)) s.
Proof.
  intros B N. destruct wire_evm_account as (RT & _).
  specialize (RT (bal, nonce) [] (conj B N)). rewrite app_nil_r in RT.
  destruct (encoding c_evm_account (bal, nonce)) as [|x r] eqn:E.
  - exfalso. revert RT. cbn. discriminate.
  - exists x, r, (Dst [] true). split; [reflexivity|]. unfold from_buffer. rewrite RT. reflexivity.
Qed.

Lemma balance_shown bal nonce : bal < 2 ^ 256 -> nonce < 2 ^ 256 ->
  exists s, answer_value KBalance (encoding c_evm_account (bal, nonce)) = Some (Result (PText s)) /\ shows s bal.
Proof.
  intros B N. destruct (account_read bal nonce B N) as (x & r & s & E & F).
  exists (to_hex_trimmed ox (u256 bal)). split.
  - unfold answer_value. rewrite E, F. reflexivity.
  - rewrite <- (u256_number bal B) at 2. apply shown_back. apply u256_word.
Qed.

Lemma count_shown bal nonce : bal < 2 ^ 256 -> nonce < 2 ^ 256 ->
  exists s, answer_value KCount (encoding c_evm_account (bal, nonce)) = Some (Result (PText s)) /\
    shows s ((nonce + 1) mod 2 ^ 256).
Proof.
  intros B N. destruct (account_read bal nonce B N) as (x & r & s & E & F).
  exists (to_hex_trimmed ox (add256 (u256 nonce) (u256 1))). split.
  - unfold answer_value. rewrite E, F. reflexivity.
  - assert (W : word (add256 (u256 nonce) (u256 1))) by (apply add256_word; apply u256_word).
    pose proof (shown_back _ W) as S. rewrite add256_ok, !u256_number in S by (apply u256_word || assumption || reflexivity).
    exact S.
Qed.

Lemma absent_shown :
  (exists s, answer_value KBalance [] = Some (Result (PText s)) /\ shows s 0) /\
  (exists s, answer_value KCount [] = Some (Result (PText s)) /\ shows s 1) /\
  answer_value KCode [] = Some (Result (PText ox)) /\ answer_value KStorage [] = Some (Result (PText ox)).
Proof.
  split; [|split; [|split; reflexivity]].
  - exists (lit "0x0"). split; [reflexivity|]. exists (repeat 0 32). split; vm_compute; reflexivity.
  - eexists. split; [reflexivity|]. exists (u256 1). split; vm_compute; reflexivity.
Qed.

Lemma data_shown k v : k = KCode \/ k = KStorage -> data_ok v ->
  exists s, answer_value k v = Some (Result (PText s)) /\ s = hex_text v /\ from_hex_prefixed ox s = Some v.
Proof.
  intros K D. exists (hex_text v). split; [|split; [reflexivity|]].
  - destruct D as (_ & N & _). destruct v; [now destruct N|]. destruct K as [->| ->]; reflexivity.
  - change (hex_text v) with (to_hex_prefixed ox v). rewrite prefixed_same. apply data_back. exact D.
Qed.

Lemma damaged_told k v : k = KBalance \/ k = KCount -> v <> [] -> len v < 64 ->
  answer_value k v = Some (Error internal_error).
Proof.
  intros K N L.
  assert (F : exists s, from_buffer c_evm_account v = Ok None s).
  { unfold from_buffer. change (dec c_evm_account (Dst v true)) with
      (bind (dec (c_array 32) (Dst v true)) (fun a s1 => bind (dec (c_array 32) s1) (fun b s2 => Ok (a, b) s2))).
    cbn [dec c_array]. unfold rd. cbn [rem valid]. change (N.of_nat 32) with 32.
    destruct (N.ltb_spec (len v) 32) as [S|S]; cbn [bind].
    - cbn [dec c_array]. unfold rd. cbn [rem valid]. change (N.of_nat 32) with 32.
      replace (len v <? 32) with true by (symmetry; apply N.ltb_lt; exact S). cbn [bind valid]. eauto.
    - cbn [dec c_array]. unfold rd. cbn [rem valid]. change (N.of_nat 32) with 32.
      replace (len (skipn (N.to_nat 32) v) <? 32) with true. { cbn [bind valid]. eauto. }
      symmetry. apply N.ltb_lt. revert L S. unfold len. rewrite skipn_length. lia. }
  destruct F as [s F]. destruct v; [now destruct N|].
  destruct K as [->| ->]; unfold answer_value; rewrite F; reflexivity.
Qed.

Lemma height_shown chain highest keccak num_text p : highest < 2 ^ 64 ->
  exists s, handle chain keccak num_text highest MBlockNumber p = Done [Result (PText s)] None true /\ shows s highest.
Proof.
  intros H. exists (to_hex_trimmed ox (u256 highest)). split; [reflexivity|].
  assert (B : highest < 2 ^ 256) by (apply (N.lt_trans _ _ _ H); reflexivity).
  rewrite <- (u256_number highest B) at 2. apply shown_back. apply u256_word.
Qed.

Lemma index_shown i count : i < 2 ^ 64 ->
  answer_block_tx (to_hex_trimmed ox (u256 i)) count =
  if i <? count then Done [Result (PNamed i)] None true
  else if i =? count then Undef else Done [Error not_found] None true.
Proof.
  intros H. unfold answer_block_tx. rewrite block_back by exact H.
  replace (to_uint64 (u256 i)) with i by (symmetry; apply u64_there_and_back; exact H). cbn zeta.
  destruct (N.ltb_spec i count) as [L|L].
  - replace (count <? i) with false by (symmetry; apply N.ltb_ge; lia).
    replace (i =? count) with false by (symmetry; apply N.eqb_neq; lia). reflexivity.
  - destruct (N.eqb_spec i count) as [->|E].
    + now rewrite N.ltb_irrefl.
    + replace (count <? i) with true by (symmetry; apply N.ltb_lt; lia). reflexivity.
Qed.
