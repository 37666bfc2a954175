(** What the theorems about EVM transactions say: totals, balances and nonces of the
    shards' contents, and what is assumed of the virtual machine. *)
From Coq Require Import NArith List Bool.
From stdpp Require Import gmap.
From Verif Require Import Base EvmHostModel.
Import ListNotations.
Open Scope N_scope.

(** The sum of all balances. *)
Definition total (d : db) : N := map_fold (fun _ v s => fst v + s) 0 (d_acc d).

Definition balance (d : db) (a : N) : N := match d_acc d !! a with Some (b, _) => b | None => 0 end.
Definition nonce (d : db) (a : N) : N := match d_acc d !! a with Some (_, n) => n | None => 0 end.

(** Balances and nonces are 256-bit numbers. *)
Definition db_ok (d : db) : Prop :=
  forall a b n, d_acc d !! a = Some (b, n) -> b < two256 /\ n < two256.

Definition code_len (d : db) (a : N) : nat :=
  match d_code d !! a with Some c => length c | None => 0%nat end.

(** An address with a key pair: it is not in the range of the precompiles and not the
    address of a contract to be (those are hashes, for which no key pair is known). *)
Definition plain_address (caddr : N -> N -> N) (caddr2 : N -> N -> bytes -> N) (a : N) : Prop :=
  is_precompile a = false /\ (forall s n, caddr s n <> a) /\ (forall s salt c, caddr2 s salt c <> a).

(** An account nobody's code can run as: such an address without code. *)
Definition plain_account (w : world) (a : N) : Prop :=
  plain_address (w_caddr w) (w_caddr2 w) a /\ code_len (w_db w) a = 0%nat.

(** What is assumed of the virtual machine. Code acts in the name of the account it runs
    as: that account is the sender of its calls and creations (the recipient, for
    DELEGATECALL and CALLCODE), the one whose storage it writes and the one it destroys.
    It does not send more than the balance the host reports, and returns no more gas than
    it was given. *)
Definition honest (w : world) (r : run) (e : event) : Prop :=
  match r_stack r with
  | [] => True
  | f :: _ =>
      match e with
      | EEnter m =>
          match m_kind m with
          | KDelegateCall => m_recipient m = f_self f
          | KCallCode => m_recipient m = f_self f /\ m_sender m = f_self f
          | _ => m_sender m = f_self f /\
                 (m_value m = 0 \/ m_value m <= fst (get_balance w (r_host r) (m_sender m)))
          end
      | ESetStorage a _ _ => a = f_self f
      | ESelfdestruct a _ => a = f_self f
      | ELeave _ g _ => g <= f_gas f
      | _ => True
      end
  end.

Fixpoint honest_run (w : world) (r : run) (es : list event) : Prop :=
  match es with
  | [] => True
  | e :: es' => honest w r e /\
      match step w r e with Stepped r' => honest_run w r' es' | _ => True end
  end.

(** The machine is honest throughout the execution of a transaction. *)
Definition machine_honest (w : world) (locks : bool * bool * bool) (from : N) (t : etx)
    (es : list event) : Prop :=
  match start w locks from t with Begun (Stepped r) => honest_run w r es | _ => True end.

(** The status of the outermost call. *)
Definition call_status (w : world) (locks : bool * bool * bool) (from : N) (t : etx)
    (es : list event) : option status :=
  match start w locks from t with
  | Begun (Stepped r) =>
      match steps w r es with Stepped r' => option_map fst (r_result r') | _ => None end
  | _ => None
  end.

(** The sender can pay: the product and the sum are those of the numbers, not modulo
    2^256. *)
Definition no_wrap (t : etx) : Prop := x_limit t * x_price t + x_value t < two256.

(** Nothing is sent to a precompile and nothing destroyed. *)
Definition keeps_value (w : world) (e : event) : Prop :=
  match e with
  | ESelfdestruct _ _ => False
  | ESetStorage a _ _ => is_precompile a = false
  | EEnter m =>
      match m_kind m with
      | KCall => m_value m = 0 \/ is_precompile (m_recipient m) = false
      | _ => True
      end
  | _ => True
  end.

(** Contract addresses are outside the range of the precompiles. *)
Definition addresses_ok (w : world) : Prop :=
  (forall s n, is_precompile (w_caddr w s n) = false) /\
  (forall s salt c, is_precompile (w_caddr2 w s salt c) = false).

(** No storage is written and no contract created. *)
Definition writes_nothing (e : event) : Prop :=
  match e with
  | ESetStorage _ _ _ => False
  | EEnter m => m_kind m <> KCreate /\ m_kind m <> KCreate2
  | _ => True
  end.

(** A history: transactions, each with its sender, executed one after the other (which
    C36 makes them appear to be), each on what the previous ones left. The machine is
    honest and the senders have key pairs. *)
Inductive history (caddr : N -> N -> N) (caddr2 : N -> N -> bytes -> N) (d : db)
  : list (N * etx) -> db -> Prop :=
| HNil : history caddr caddr2 d [] d
| HSnoc l d1 env dbg locks from t es u :
    let w := World d1 env false dbg caddr caddr2 in
    history caddr caddr2 d l d1 ->
    plain_address caddr caddr2 from ->
    machine_honest w locks from t es ->
    execute w locks from t es = Some (Done u) ->
    history caddr caddr2 d (l ++ [(from, t)]) (apply_updates d1 u).

(** Code destroys itself only where there is an account. *)
Fixpoint destroys_existing (w : world) (r : run) (es : list event) : Prop :=
  match es with
  | [] => True
  | e :: es' =>
      match e with
      | ESelfdestruct a _ => fst (get_account w (r_host r) a false) <> None
      | _ => True
      end /\
      match step w r e with Stepped r' => destroys_existing w r' es' | _ => True end
  end.

(** The logs emitted, in order. *)
Definition logged (es : list event) : list evm_log :=
  flat_map (fun e => match e with ELog l => [l] | _ => [] end) es.
