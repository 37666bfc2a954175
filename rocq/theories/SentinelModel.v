(** The sentinels: src/uhs/twophase/sentinel_2pc/controller.cpp and
    src/uhs/atomizer/sentinel/controller.cpp.

    Simplifications, valid for the whole file:
    - handling one request touches no state of the sentinel except its random generator, so
      requests do not interfere; the model follows one request. Its draws are a stream;
    - what the other sentinels, the coordinators and the network do is an argument;
    - the retry loop of send_compact_tx (2PC) is left out: the submission is what counts. *)
From Coq Require Import NArith List Bool.
From stdpp Require Import base decidable list.
From Verif Require Import Base CodecModel TxModel ValidationModel.
Import ListNotations.
Open Scope N_scope.

(** m_privkey, m_opts.m_attestation_threshold and m_sentinel_clients.size(). [se_key] is
    [None] if no key was configured: m_privkey is then all zeroes, which is no key. *)
Record sentinel := Sentinel { se_key : option N; se_threshold : N; se_peers : nat }.

(** sentinel_2pc::controller::init, controller.cpp:41-54: a key may be missing if no
    attestations are needed; atomizer/sentinel/controller.cpp:22-31: never. *)
Definition init_2pc (s : sentinel) : bool :=
  match se_key s with Some _ => true | None => negb (0 <? se_threshold s) end.
Definition init_atomizer (s : sentinel) : bool :=
  match se_key s with Some _ => true | None => false end.

(** std::unordered_map::insert of an attestation. *)
Definition add_att (t : compact_tx) (a : N * N) : compact_tx :=
  if existsb (fun p => fst p =? fst a) (ctx_atts t) then t
  else CompactTx (ctx_id t) (ctx_inputs t) (ctx_outputs t) (ctx_atts t ++ [a]).

Inductive tx_status := StPending | StStaticInvalid | StStateInvalid | StConfirmed.
(** execute_response, sentinel/interface.hpp:56-63. *)
Record execute_response := Response { rs_status : tx_status; rs_error : option tx_error }.

Section Sentinel.
  Variable sha : bytes -> hash.
  Variable pk_parse : N -> bool.
  Variable schnorr : N -> hash -> N -> bool.
  (** The public key of a private key, and secp256k1_schnorrsig_sign. *)
  Variable pub_of : N -> N.
  Variable ssign : N -> hash -> N.

  (** compact_tx::sign, transaction.cpp:137-156. [None]: the key is no key, an assertion
      fails. *)
  Definition attest (s : sentinel) (t : compact_tx) : option (N * N) :=
    match se_key s with
    | None => None
    | Some sk => Some (pub_of sk, ssign sk (ctx_hash sha t))
    end.

  (** validate_transaction, sentinel_2pc/controller.cpp:143-155,
      atomizer/sentinel/controller.cpp:118-127. *)
  Inductive validated := VAttest (a : N * N) | VRefuse | VCrash.
  Definition validate_transaction (s : sentinel) (tx : full_tx) : validated :=
    match check_tx sha pk_parse schnorr tx with
    | Rejected _ => VRefuse
    | OutOfBounds => VCrash
    | Accepted => match attest s (to_compact sha tx) with
                  | None => VCrash
                  | Some a => VAttest a
                  end
    end.

  (** gather_attestations and validate_result_handler, sentinel_2pc/controller.cpp:157-207,
      atomizer/sentinel/controller.cpp:129-170. [draws]: the random numbers. [ask n k]: what
      becomes of the request to peer [k] made after the [n]-th draw: [None] if it cannot be
      sent; an attestation or nothing. [GRunning]: not finished after [fuel] draws. [GOob]:
      a client that does not exist is used. *)
  Inductive gathered := GReady (t : compact_tx) | GRefused | GRunning | GOob.
  Fixpoint gather (fuel : nat) (draws : nat -> nat) (ask : nat -> nat -> option (option (N * N)))
      (s : sentinel) (n : nat) (t : compact_tx) (requested : list nat) : gathered :=
    if len (ctx_atts t) <? se_threshold s then
      match fuel with
      | O => GRunning
      | S f =>
          let k := draws n in
          if bool_decide (k ∈ requested) then gather f draws ask s (S n) t requested
          else if (se_peers s <=? k)%nat then GOob
          else match ask n k with
               | None => gather f draws ask s (S n) t requested
               | Some None => GRefused
               | Some (Some a) => gather f draws ask s (S n) (add_att t a) (k :: requested)
               end
      end
    else GReady t.

  (** execute_transaction of the 2PC sentinel with result_handler and send_compact_tx,
      sentinel_2pc/controller.cpp:98-141, 209-227. [coordinator]: what the coordinator
      answers to a transaction. The result: what was submitted and what the client is
      told; [None] for the latter: an error. *)
  Inductive executed :=
  | XDone (submitted : option compact_tx) (answer : option execute_response)
  | XRunning | XCrash.
  Definition execute_2pc (fuel : nat) (draws : nat -> nat) (ask : nat -> nat -> option (option (N * N)))
      (coordinator : compact_tx -> option bool) (s : sentinel) (tx : full_tx) : executed :=
    match check_tx sha pk_parse schnorr tx with
    | OutOfBounds => XCrash
    | Rejected e => XDone None (Some (Response StStaticInvalid (Some e)))
    | Accepted =>
        let t := to_compact sha tx in
        match (if 0 <? se_threshold s then option_map (add_att t) (attest s t) else Some t) with
        | None => XCrash
        | Some t =>
            match gather fuel draws ask s 0 t [] with
            | GReady t =>
                XDone (Some t)
                  (match coordinator t with
                   | None => None
                   | Some true => Some (Response StConfirmed None)
                   | Some false => Some (Response StStateInvalid None)
                   end)
            | GRefused => XDone None None
            | GRunning => XRunning
            | GOob => XCrash
            end
        end
    end.

  (** execute_transaction and send_transaction of the atomizer's sentinel,
      atomizer/sentinel/controller.cpp:86-116. The answer does not wait for the
      attestations. *)
  Inductive forwarded := FNothing | FShards (t : compact_tx) | FRunning | FCrash.
  Definition execute_atomizer (fuel : nat) (draws : nat -> nat) (ask : nat -> nat -> option (option (N * N)))
      (s : sentinel) (tx : full_tx) : forwarded * option execute_response :=
    match check_tx sha pk_parse schnorr tx with
    | OutOfBounds => (FCrash, None)
    | Rejected e => (FNothing, Some (Response StStaticInvalid (Some e)))
    | Accepted =>
        let t := to_compact sha tx in
        match option_map (add_att t) (attest s t) with
        | None => (FCrash, None)
        | Some t =>
            (match gather fuel draws ask s 0 t [] with
             | GReady t => FShards t
             | GRefused => FNothing
             | GRunning => FRunning
             | GOob => FCrash
             end,
             Some (Response StPending None))
        end
    end.
End Sentinel.

(** send_compact_tx of the atomizer's sentinel, atomizer/sentinel/controller.cpp:172-205.
    [shards]: the range of each shard and whether it is connected. The inner loop, over the
    inputs [js] (indices), for the shard met in round [i]; it looks at m_inputs[i]. [None]: an
    input that does not exist is read. *)
Fixpoint send_inputs (range : N * N) (inputs : list hash) (i : nat) (js : list nat) (sent : list nat)
  : option (list nat * bool) :=
  match js with
  | [] => Some (sent, false)
  | j :: js =>
      if bool_decide (j ∈ sent) then send_inputs range inputs i js sent
      else match nth_error inputs i with
           | None => None
           | Some h =>
               if in_range range h
               then match send_inputs range inputs i js (j :: sent) with
                    | None => None
                    | Some (sent', _) => Some (sent', true)
                    end
               else send_inputs range inputs i js sent
           end
  end.
(** The outer loop from round [i], [n] rounds to go: the shards sent to, in order. *)
Fixpoint send_rounds (shards : list ((N * N) * bool)) (inputs : list hash) (offset : nat)
    (n i : nat) (sent : list nat) : option (list nat) :=
  match n with
  | O => Some []
  | S n =>
      let idx := Nat.modulo (i + offset) (length shards) in
      if (length sent =? length inputs)%nat then Some []
      else match nth_error shards idx with
           | None => None
           | Some (range, connected) =>
               if negb connected then send_rounds shards inputs offset n (S i) sent
               else match send_inputs range inputs i (seq 0 (length inputs)) sent with
                    | None => None
                    | Some (sent', should_send) =>
                        match send_rounds shards inputs offset n (S i) sent' with
                        | None => None
                        | Some l => Some (if should_send then idx :: l else l)
                        end
                    end
           end
  end.
Definition send_to_shards (shards : list ((N * N) * bool)) (offset : nat) (t : compact_tx) : option (list nat) :=
  send_rounds shards (ctx_inputs t) offset (length shards) 0 [].
