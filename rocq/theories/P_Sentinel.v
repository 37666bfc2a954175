(** C66-C69: the sentinels. *)
From Coq Require Import NArith List Bool.
From stdpp Require Import base decidable list.
From Verif Require Import Base CodecModel TxModel TxSpec TxExamples ValidationModel ValidationSpec
  WalletModel WalletSpec WalletExamples SentinelModel SentinelSpec SentinelProofs SentinelExamples CollideSpec CollideProofs.
Import ListNotations.
Open Scope N_scope.

(** C66: a sentinel vouches for exactly the valid transactions, with its own signature. *)
Theorem C66_vouches sha pk_parse schnorr pub_of ssign s tx sk : typed_tx tx -> se_key s = Some sk ->
  (valid_tx sha pk_parse schnorr tx /\
   validate_transaction sha pk_parse schnorr pub_of ssign s tx =
     VAttest (pub_of sk, ssign sk (ctx_hash sha (to_compact sha tx)))) \/
  (~ valid_tx sha pk_parse schnorr tx /\ validate_transaction sha pk_parse schnorr pub_of ssign s tx = VRefuse).
Proof. exact (vouch_iff sha pk_parse schnorr pub_of ssign s tx sk). Qed.
Print Assumptions C66_vouches.

(** What it submits to a coordinator is valid, says what the client's transaction says and
    carries enough attestations by different keys; if the other sentinels do their work,
    every shard that knows their keys accepts them. *)
Theorem C66_submits_2pc sha pk_parse schnorr pub_of ssign fuel draws ask coord s others tx t ans known :
  typed_tx tx ->
  execute_2pc sha pk_parse schnorr pub_of ssign fuel draws ask coord s tx = XDone (Some t) ans ->
  valid_tx sha pk_parse schnorr tx /\ compact_of sha tx t /\
  List.NoDup (map fst (ctx_atts t)) /\ se_threshold s <= len (ctx_atts t) /\
  (keys_work pk_parse schnorr pub_of ssign ->
   peers_honest sha pk_parse schnorr pub_of ssign others tx ask ->
   (forall pk, In pk (public_keys pub_of (s :: others)) -> In pk known) ->
   check_attestations sha pk_parse schnorr t known (se_threshold s) = true).
Proof. exact (submit_2pc sha pk_parse schnorr pub_of ssign fuel draws ask coord s others tx t ans known). Qed.
Print Assumptions C66_submits_2pc.
(** The same for what the atomizer's sentinel forwards to the shards. *)
Theorem C66_forwards_atomizer sha pk_parse schnorr pub_of ssign fuel draws ask s others tx t ans known :
  typed_tx tx ->
  execute_atomizer sha pk_parse schnorr pub_of ssign fuel draws ask s tx = (FShards t, ans) ->
  valid_tx sha pk_parse schnorr tx /\ compact_of sha tx t /\
  List.NoDup (map fst (ctx_atts t)) /\ se_threshold s <= len (ctx_atts t) /\
  (keys_work pk_parse schnorr pub_of ssign ->
   peers_honest sha pk_parse schnorr pub_of ssign others tx ask ->
   (forall pk, In pk (public_keys pub_of (s :: others)) -> In pk known) ->
   check_attestations sha pk_parse schnorr t known (se_threshold s) = true).
Proof. exact (forward_atomizer sha pk_parse schnorr pub_of ssign fuel draws ask s others tx t ans known). Qed.
Print Assumptions C66_forwards_atomizer.
(** What the client is told: "confirmed" if and only if the coordinator said that the
    submitted transaction was executed. *)
Theorem C66_answer_2pc sha pk_parse schnorr pub_of ssign fuel draws ask coord s tx sub r : typed_tx tx ->
  execute_2pc sha pk_parse schnorr pub_of ssign fuel draws ask coord s tx = XDone sub (Some r) ->
  match rs_status r with
  | StConfirmed => exists t, sub = Some t /\ coord t = Some true
  | StStateInvalid => exists t, sub = Some t /\ coord t = Some false
  | StStaticInvalid => sub = None /\ exists e, rs_error r = Some e /\ first_fault sha pk_parse schnorr tx e
  | StPending => False
  end.
Proof. exact (answer_2pc sha pk_parse schnorr pub_of ssign fuel draws ask coord s tx sub r). Qed.
Print Assumptions C66_answer_2pc.
(** The answers of other sentinels are not checked: one bad signature spoils the
    transaction. *)
Theorem C66_lying_peer_refuted : exists s tx fuel draws ask t,
  typed_tx tx /\ valid_tx quick_sha all_parse toy_schnorr tx /\
  execute_2pc quick_sha all_parse toy_schnorr toy_pub toy_ssign fuel draws ask (fun _ => Some false) s tx =
    XDone (Some t) (Some (Response StStateInvalid None)) /\
  check_attestations quick_sha all_parse toy_schnorr t [toy_pub 1001; toy_pub 1002; toy_pub 1003] (se_threshold s) = false.
Proof. exact lying_case. Qed.
Print Assumptions C66_lying_peer_refuted.

Example C66_example : typed_tx pay_tx /\ valid_tx quick_sha all_parse toy_schnorr pay_tx /\
  keys_work all_parse toy_schnorr toy_pub toy_ssign /\
  peers_honest quick_sha all_parse toy_schnorr toy_pub toy_ssign [sen2; sen3] pay_tx (ask_peers pay_tx) /\
  submitted_ok (execute_2pc quick_sha all_parse toy_schnorr toy_pub toy_ssign 5 alternate (ask_peers pay_tx)
                  (fun _ => Some true) sen1 pay_tx) = true.
Proof. exact (conj pay_typed (conj pay_valid (conj toy_keys_work (conj (ask_honest pay_tx) pay_runs)))). Qed.

(** C67: a transaction that the shards accept was validated: if fewer than [threshold] of the
    keys they know belong to sentinels that sign what they should not, there is a valid
    transaction with the hash that is signed; and a transaction with that hash says the same, unless
    the texts hashed for the two are different and have the same hash. *)
Theorem C67_attested_means_valid sha pk_parse schnorr t known threshold bad :
  typed_compact_tx t -> sha_fits sha ->
  check_attestations sha pk_parse schnorr t known threshold = true ->
  len bad < threshold ->
  (forall pk, In pk known -> ~ In pk bad -> honest_key sha pk_parse schnorr pk) ->
  (exists tx, typed_full_tx tx /\ valid_tx sha pk_parse schnorr tx /\
     ctx_hash sha t = ctx_hash sha (to_compact sha tx)) /\
  forall tx, typed_full_tx tx -> ctx_hash sha t = ctx_hash sha (to_compact sha tx) ->
    compact_of sha tx t \/ collides sha [attested_text t; attested_text (to_compact sha tx)].
Proof. exact (valid_attested sha pk_parse schnorr t known threshold bad). Qed.
Print Assumptions C67_attested_means_valid.
Example C67_example : typed_compact_tx attested_pay /\ sha_fits quick_sha /\
  check_attestations quick_sha all_parse strict_schnorr attested_pay [1001; 1002; 1003] 2 = true /\
  (forall pk, In pk [1001; 1002; 1003] -> ~ In pk [1003] -> honest_key quick_sha all_parse strict_schnorr pk).
Proof. exact attested_case. Qed.

(** C68: a transaction reaches the shards that hold its inputs. True with one shard. *)
Theorem C68_single_shard_partial range offset t h :
  nth_error (ctx_inputs t) 0 = Some h -> in_range range h = true ->
  send_to_shards [(range, true)] offset t = Some [0%nat].
Proof. exact (single_shard_sent range offset t h). Qed.
Print Assumptions C68_single_shard_partial.
(** False with more: whatever the shards, the transaction and the draw, at most one shard is
    sent to. *)
Theorem C68_at_most_one_refuted shards offset t l :
  send_to_shards shards offset t = Some l -> (length l <= 1)%nat.
Proof. exact (at_most_one shards offset t l). Qed.
Print Assumptions C68_at_most_one_refuted.
(** So a transaction with inputs in two shards never reaches all of them. *)
Theorem C68_two_shards_refuted shards offset t l h1 h2 k1 k2 : disjoint_shards shards ->
  In h1 (ctx_inputs t) -> In h2 (ctx_inputs t) ->
  holds_input shards k1 h1 -> holds_input shards k2 h2 -> k1 <> k2 ->
  send_to_shards shards offset t = Some l ->
  exists h k, In h (ctx_inputs t) /\ holds_input shards k h /\ ~ In k l.
Proof. exact (two_shards_missed shards offset t l h1 h2 k1 k2). Qed.
Print Assumptions C68_two_shards_refuted.
(** And one with a single input reaches its shard for one draw only: every other draw reads
    past the end of the inputs ([None]). *)
Theorem C68_one_input_refuted shards offset t h k : disjoint_shards shards -> ctx_inputs t = [h] ->
  Forall (fun s => snd s = true) shards -> (2 <= length shards)%nat -> holds_input shards k h ->
  send_to_shards shards offset t = if Nat.eqb (Nat.modulo offset (length shards)) k then Some [k] else None.
Proof. exact (one_input_sent shards offset t h k). Qed.
Print Assumptions C68_one_input_refuted.
Example C68_example : disjoint_shards two_shards /\
  holds_input two_shards 0 low_hash /\ holds_input two_shards 1 high_hash /\
  send_to_shards two_shards 0 both_tx = Some [0%nat] /\
  send_to_shards two_shards 1 both_tx = Some [] /\
  send_to_shards two_shards 0 low_tx = Some [0%nat] /\ send_to_shards two_shards 1 low_tx = None.
Proof. exact shards_case. Qed.

(** C69: a request is answered: if there are enough sentinels, all of them answer and the
    random choices leave nobody out for ever, a valid transaction is submitted and the
    client is told the coordinator's answer. *)
Theorem C69_answers_2pc_partial sha pk_parse schnorr pub_of ssign draws ask coord s sk tx :
  typed_tx tx -> valid_tx sha pk_parse schnorr tx -> se_key s = Some sk ->
  fair (se_peers s) draws -> in_bounds (se_peers s) draws -> peers_answer (se_peers s) ask [pub_of sk] ->
  se_threshold s <= 1 + N.of_nat (se_peers s) ->
  exists fuel t, execute_2pc sha pk_parse schnorr pub_of ssign fuel draws ask coord s tx =
    XDone (Some t) (match coord t with
                    | None => None
                    | Some true => Some (Response StConfirmed None)
                    | Some false => Some (Response StStateInvalid None)
                    end).
Proof. exact (answers_2pc sha pk_parse schnorr pub_of ssign draws ask coord s sk tx). Qed.
Print Assumptions C69_answers_2pc_partial.
(** Executing a transaction never brings down a sentinel that has other sentinels. *)
Theorem C69_no_crash_partial sha pk_parse schnorr pub_of ssign fuel draws ask coord s tx :
  typed_tx tx -> init_2pc s = true -> in_bounds (se_peers s) draws ->
  execute_2pc sha pk_parse schnorr pub_of ssign fuel draws ask coord s tx <> XCrash.
Proof. exact (no_crash_2pc sha pk_parse schnorr pub_of ssign fuel draws ask coord s tx). Qed.
Print Assumptions C69_no_crash_partial.
(** If more attestations are wanted than there are sentinels, every valid transaction keeps
    the sentinel busy for ever. *)
Theorem C69_threshold_refuted sha pk_parse schnorr pub_of ssign fuel draws ask coord s sk tx :
  typed_tx tx -> valid_tx sha pk_parse schnorr tx -> se_key s = Some sk ->
  in_bounds (se_peers s) draws -> (forall n k, ask n k <> Some None) ->
  1 + N.of_nat (se_peers s) < se_threshold s ->
  execute_2pc sha pk_parse schnorr pub_of ssign fuel draws ask coord s tx = XRunning.
Proof. exact (never_2pc sha pk_parse schnorr pub_of ssign fuel draws ask coord s sk tx). Qed.
Print Assumptions C69_threshold_refuted.
(** A lone sentinel that wants two attestations uses a client that does not exist. *)
Theorem C69_alone_refuted sha pk_parse schnorr pub_of ssign fuel draws ask coord s sk tx :
  typed_tx tx -> valid_tx sha pk_parse schnorr tx -> se_key s = Some sk ->
  se_peers s = 0%nat -> 1 < se_threshold s ->
  execute_2pc sha pk_parse schnorr pub_of ssign (S fuel) draws ask coord s tx = XCrash.
Proof. exact (alone_2pc sha pk_parse schnorr pub_of ssign fuel draws ask coord s sk tx). Qed.
Print Assumptions C69_alone_refuted.
(** A sentinel that needs no attestations may be started without a key; any request to
    validate a valid transaction then brings it down. *)
Theorem C69_no_key_refuted sha pk_parse schnorr pub_of ssign s tx :
  typed_tx tx -> valid_tx sha pk_parse schnorr tx -> se_key s = None ->
  validate_transaction sha pk_parse schnorr pub_of ssign s tx = VCrash.
Proof. exact (no_key sha pk_parse schnorr pub_of ssign s tx). Qed.
Print Assumptions C69_no_key_refuted.
(** The atomizer's sentinel says "pending" also if the transaction goes nowhere. *)
Theorem C69_pending_refuted : exists s tx fuel draws ask, typed_tx tx /\ valid_tx quick_sha all_parse toy_schnorr tx /\
  init_atomizer s = true /\
  execute_atomizer quick_sha all_parse toy_schnorr toy_pub toy_ssign fuel draws ask s tx =
    (FNothing, Some (Response StPending None)).
Proof. exact pending_case. Qed.
Print Assumptions C69_pending_refuted.
Example C69_example : typed_tx pay_tx /\ valid_tx quick_sha all_parse toy_schnorr pay_tx /\
  se_key sen1 = Some 1001 /\ (fair (se_peers sen1) alternate /\ in_bounds (se_peers sen1) alternate) /\
  peers_answer (se_peers sen1) (ask_peers pay_tx) [toy_pub 1001] /\
  se_threshold sen1 <= 1 + N.of_nat (se_peers sen1) /\
  init_2pc (Sentinel None 0 2) = true.
Proof.
  exact (conj pay_typed (conj pay_valid (conj eq_refl (conj alternate_fair (conj ask_answers
    (conj two_of_three eq_refl)))))).
Qed.
