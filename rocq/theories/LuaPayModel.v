(** Model of the payment contract of PArSEC, scripts/gen_bytecode.lua, as a contract of the Lua
    runner (LuaModel), and of the wallet that uses it, tools/bench/parsec/lua/wallet.cpp.

    Simplifications, valid for the whole file:
    - an integer of Lua is a number from -2^63 to 2^63 - 1, and arithmetic wraps round;
      string.pack and string.unpack with "I8" are little-endian (x86-64) and take any integer;
      without "!" nothing is aligned;
    - the order in which lua_next visits the table the contract returns does not matter (the
      runner makes a map of it, C88): the payer's entry is put first;
    - the wallet's calls to the agent and the broker are C76 and C93. *)
From Coq Require Import NArith ZArith List Bool String.
From stdpp Require Import base option list.
From Verif Require Import Base CodecModel LuaModel.
Import ListNotations.
Open Scope N_scope.

(** A 64-bit number read into an integer of Lua, an integer written, and addition. *)
Definition lua_int (u : N) : Z := if u <? 2 ^ 63 then Z.of_N u else (Z.of_N u - 2 ^ 64)%Z.
Definition pack (z : Z) : bytes := le_bytes 8 (Z.to_N (z mod 2 ^ 64)).
Definition lua_add (a b : Z) : Z := lua_int (Z.to_N ((a + b) mod 2 ^ 64)).

Definition unpack (b : bytes) : Z := lua_int (le_value (take 8 b)).

(** The string "account_". *)
Definition prefix : bytes := [97; 99; 99; 111; 117; 110; 116; 95].

(** get_account_key, gen_bytecode.lua:5-7. *)
Definition account_key (name : bytes) : bytes := prefix ++ name.

(** What get_account makes of the value it is given, gen_bytecode.lua:12-15. *)
Definition unpack_account (data : bytes) : option (Z * Z) :=
  if (length data =? 0)%nat then Some (0, 0)%Z
  else if (length data <? 16)%nat then None
  else Some (unpack data, unpack (drop 8 data)).

(** Where the contract is: at its start; in the first get_account; in the second one. *)
Inductive pay_state :=
| PStart
| PFrom (from to : bytes) (value seq : Z) (sig : bytes)
| PTo (from to : bytes) (value seq from_balance : Z).

Section contract.
  (** secp256k1_xonly_pubkey_parse; secp256k1_schnorrsig_verify; CSHA256. *)
  Context (parse : bytes -> bool) (verify : bytes -> bytes -> bytes -> bool)
    (sha256 : bytes -> bytes).

  (** The contract, gen_bytecode.lua:2-56, resumed with a string. update_accounts and
      pack_account, 18-29: an entry for the payee replaces one for the payer. *)
  Definition pay_resume (s : pay_state) (i : bytes) : resumed pay_state :=
    match s with
    | PStart =>
        if (length i <? 144)%nat then LFail
        else LYield [LStr (account_key (take 32 i))]
               (PFrom (take 32 i) (take 32 (drop 32 i)) (unpack (drop 64 i)) (unpack (drop 72 i))
                  (take 64 (drop 80 i)))
    | PFrom from to value seq sig =>
        match unpack_account i with
        | None => LFail
        | Some (from_balance, from_seq) =>
            if negb (check_sig parse verify sha256
                       [LStr from; LStr sig; LStr (to ++ pack value ++ pack seq)]) then LFail
            else if (seq <? from_seq)%Z then LFail
            else if (from_balance <? value)%Z then LFail
            else if (0 <? value)%Z
            then LYield [LStr (account_key to)] (PTo from to value seq from_balance)
            else LReturn [LTable [(LStr (account_key from),
                                   LStr (pack from_balance ++ pack (lua_add seq 1)))]]
        end
    | PTo from to value seq from_balance =>
        match unpack_account i with
        | None => LFail
        | Some (to_balance, to_seq) =>
            let payee := (LStr (account_key to),
                          LStr (pack (lua_add to_balance value) ++ pack to_seq)) in
            if bool_decide (from = to) then LReturn [LTable [payee]]
            else LReturn [LTable [(LStr (account_key from),
                                   LStr (pack (lua_add from_balance (- value)) ++
                                         pack (lua_add seq 1)));
                                  payee]]
        end
    end.

  (** A run that is given every lock with the value stored under its key; a key that is locked
      already is answered with the same value (broker/impl.cpp:765-772). What is asked for and
      what is reported. *)
  Definition pay_run (db : bytes -> bytes) (param : bytes) : list bytes * run_result :=
    let answer k := (Value (db k), true) in
    match schedule pay_resume 3 PStart param true with
    | (Waiting s, [ALock k]) =>
        match on_lock pay_resume 3 (Waiting s) (answer k) with
        | (Waiting s', [ALock k']) =>
            match on_lock pay_resume 3 (Waiting s') (answer k') with
            | (_, [AReport r]) => ([k; k'], r)
            | _ => ([k; k'], Failed InternalError)
            end
        | (_, [AReport r]) => ([k], r)
        | _ => ([k], Failed InternalError)
        end
    | (_, [AReport r]) => ([], r)
    | _ => ([], Failed InternalError)
    end.
  Definition pay (db : bytes -> bytes) (param : bytes) : run_result := snd (pay_run db param).

  (** What is stored after an update was committed. *)
  Definition store (db : bytes -> bytes) (u : list (bytes * bytes)) (k : bytes) : bytes :=
    match find (fun e => bool_decide (fst e = k)) u with Some e => snd e | None => db k end.

  (** Payments one after the other (C75: what a run computed is committed, or nothing is). *)
  Definition pay_step (db : bytes -> bytes) (param : bytes) : bytes -> bytes :=
    match pay db param with Updates u => store db u | Failed _ => db end.
  Definition pay_steps (db : bytes -> bytes) (l : list bytes) : bytes -> bytes :=
    fold_left pay_step l db.

  (** ** The wallet, wallet.cpp *)

  (** m_pubkey, m_balance, m_sequence. *)
  Record account_wallet := AccountWallet { aw_key : bytes; aw_balance : N; aw_seq : N }.

  (** secp256k1_schnorrsig_sign with the wallet's private key. *)
  Context (sign : bytes -> bytes).

  (** make_pay_params, wallet.cpp:71-105. *)
  Definition make_pay_params (w : account_wallet) (to : bytes) (amount : N) : bytes :=
    aw_key w ++ to ++ le_bytes 8 amount ++ le_bytes 8 (aw_seq w) ++
    sign (sha256 (to ++ le_bytes 8 amount ++ le_bytes 8 (aw_seq w))).

  (** pay, wallet.cpp:49-58: the parameters it sends, if any. *)
  Definition wallet_pay (w : account_wallet) (to : bytes) (amount : N) : option bytes :=
    if aw_balance w <? amount then None else Some (make_pay_params w to amount).

  (** The callback of execute_params, wallet.cpp:115-125; [None]: the assertion fails. *)
  Definition wallet_result (w : account_wallet) (r : run_result) : option account_wallet :=
    match r with
    | Failed _ => Some w
    | Updates u =>
        match find (fun e => bool_decide (fst e = account_key (aw_key w))) u with
        | None => None
        | Some e => Some (AccountWallet (aw_key w) (le_value (take 8 (snd e)))
                            (le_value (take 8 (drop 8 (snd e)))))
        end
    end.

  (** init, wallet.cpp:31-47: the value written to the account. *)
  Definition init_account (value : N) : bytes := le_bytes 8 value ++ le_bytes 8 0.
End contract.
