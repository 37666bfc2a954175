(** Model of the execution of an EVM transaction by an agent:
    src/parsec/agent/runners/evm/host.cpp and impl.cpp (the part that runs transactions).

    Modelled: the three kinds of state a transaction can touch (accounts, code, storage),
    the cache of the host with its lock modes, the gas purchase and refund, every callback
    that the virtual machine makes into the host, nested calls and creations, the receipt
    and the set of state updates handed to the broker.

    Not modelled: the virtual machine itself (evmone). A run of it is the list of
    callbacks it makes, in order; the theorems hold for every such list. The values the
    callbacks return to it are not recorded, except the balance, which the specification
    of a well-behaved machine mentions. The cold and warm access lists
    (m_accessed_addresses, m_accessed_storage_keys, m_modified) only change gas prices
    and are left out, as are access_account, access_storage, get_tx_context and
    get_block_hash, which change nothing else. *)
From Coq Require Import NArith List Bool.
From stdpp Require Import gmap.
From Verif Require Import Base.
Import ListNotations.
Open Scope N_scope.

(** evmc::uint256be as a number, with the operators of math.cpp (C47: they are
    arithmetic modulo 2^256). *)
Definition two256 : N := 2 ^ 256.
Definition wadd (a b : N) : N := (a + b) mod two256.
Definition wsub (a b : N) : N := (a + two256 - b mod two256) mod two256.
Definition wmul (a b : N) : N := (a * b) mod two256.
(** to_uint64 (util.cpp:23-25) and the casts between int64_t and uint64_t around it: the
    low 64 bits. Amounts of gas are kept as these 64 bits throughout. *)
Definition low64 (a : N) : N := a mod 2 ^ 64.

(** evm_account, messages.hpp:24-34, without m_modified. *)
Record acct := Acct { a_balance : N; a_nonce : N; a_destruct : bool }.
Definition acct0 : acct := Acct 0 0 false.

(** What the shards hold. The keys of accounts are 20 bytes, those of code 21 and those of
    storage 52 (format.cpp), so that they never meet. Only the balance and the nonce of an
    account are stored (format.cpp:10-20). A key that is absent and one that holds the
    empty string read the same (host.cpp:71-74) and are both [None]. *)
Record db := Db {
  d_acc : gmap N (N * N);
  d_code : gmap N bytes;
  d_sto : gmap (N * N) N
}.

(** evm_log, messages.hpp:95-102. *)
Record evm_log := EvmLog { l_addr : N; l_data : bytes; l_topics : list N }.

(** evm_tx, messages.hpp:66-89: the fields that execution looks at. *)
Record etx := Etx {
  x_to : option N;
  x_value : N;
  x_nonce : N;
  x_price : N;
  x_limit : N;
  x_input : bytes
}.

(** What is fixed during one run: the shards' contents (constant while the ticket holds
    its locks, C36), the outcome of the i-th lock request, whether this is a dry run
    (m_is_readonly_run), whether asserts are compiled in, and the two functions giving the
    address of a new contract (contract_address and contract_address2, address.cpp, keccak
    of the arguments). *)
Record world := World {
  w_db : db;
  w_env : nat -> bool;
  w_ro : bool;
  w_dbg : bool;
  w_caddr : N -> N -> N;
  w_caddr2 : N -> N -> bytes -> N
}.

(** The host, host.hpp: m_accounts, m_account_code, m_account_storage (each entry with the
    flag "held for writing"), m_retry, m_init_state, and the receipt's m_logs, m_success,
    m_create_address, m_output_data, m_gas_used. [h_asked] counts the lock requests. *)
Record host := Host {
  h_acc : gmap N (option acct * bool);
  h_code : gmap N (option bytes * bool);
  h_sto : gmap (N * N) (option N * bool);
  h_retry : bool;
  h_init : gmap N (option acct * bool);
  h_logs : list evm_log;
  h_success : bool;
  h_create : option N;
  h_out : bytes;
  h_gas : N;
  h_asked : nat
}.

Definition host0 : host := Host ∅ ∅ ∅ false ∅ [] false None [] 0 0.

Definition set_acc (h : host) (m : gmap N (option acct * bool)) : host :=
  Host m (h_code h) (h_sto h) (h_retry h) (h_init h) (h_logs h) (h_success h)
       (h_create h) (h_out h) (h_gas h) (h_asked h).
Definition set_code (h : host) (m : gmap N (option bytes * bool)) : host :=
  Host (h_acc h) m (h_sto h) (h_retry h) (h_init h) (h_logs h) (h_success h)
       (h_create h) (h_out h) (h_gas h) (h_asked h).
Definition set_sto (h : host) (m : gmap (N * N) (option N * bool)) : host :=
  Host (h_acc h) (h_code h) m (h_retry h) (h_init h) (h_logs h) (h_success h)
       (h_create h) (h_out h) (h_gas h) (h_asked h).
Definition set_init (h : host) (m : gmap N (option acct * bool)) : host :=
  Host (h_acc h) (h_code h) (h_sto h) (h_retry h) m (h_logs h) (h_success h)
       (h_create h) (h_out h) (h_gas h) (h_asked h).
Definition set_logs (h : host) (l : list evm_log) : host :=
  Host (h_acc h) (h_code h) (h_sto h) (h_retry h) (h_init h) l (h_success h)
       (h_create h) (h_out h) (h_gas h) (h_asked h).
Definition set_success (h : host) (b : bool) : host :=
  Host (h_acc h) (h_code h) (h_sto h) (h_retry h) (h_init h) (h_logs h) b
       (h_create h) (h_out h) (h_gas h) (h_asked h).
Definition set_create (h : host) (a : option N) : host :=
  Host (h_acc h) (h_code h) (h_sto h) (h_retry h) (h_init h) (h_logs h) (h_success h)
       a (h_out h) (h_gas h) (h_asked h).
Definition set_out (h : host) (o : bytes) : host :=
  Host (h_acc h) (h_code h) (h_sto h) (h_retry h) (h_init h) (h_logs h) (h_success h)
       (h_create h) o (h_gas h) (h_asked h).
Definition set_gas (h : host) (g : N) : host :=
  Host (h_acc h) (h_code h) (h_sto h) (h_retry h) (h_init h) (h_logs h) (h_success h)
       (h_create h) (h_out h) g (h_asked h).

Definition put_acc (h : host) (a : N) (v : option acct) (w : bool) : host :=
  set_acc h (<[a := (v, w)]> (h_acc h)).
Definition put_code (h : host) (a : N) (v : option bytes) (w : bool) : host :=
  set_code h (<[a := (v, w)]> (h_code h)).
Definition put_sto (h : host) (k : N * N) (v : option N) (w : bool) : host :=
  set_sto h (<[k := (v, w)]> (h_sto h)).

(** The request part of get_key, host.cpp:686-742: a request that is not sent or is
    answered with an error sets m_retry and yields nothing. *)
Definition ask (w : world) (h : host) : bool * host :=
  let ok := w_env w (h_asked h) in
  (ok, Host (h_acc h) (h_code h) (h_sto h) (h_retry h || negb ok) (h_init h) (h_logs h)
            (h_success h) (h_create h) (h_out h) (h_gas h) (S (h_asked h))).

(** is_precompile, host.cpp:598-607: all but the last two bytes zero, the last not. *)
Definition is_precompile (a : N) : bool := (a <? 65536) && negb (a mod 256 =? 0).

Definition stored_acc (d : db) (a : N) : option acct :=
  match d_acc d !! a with Some (b, n) => Some (Acct b n false) | None => None end.

(** get_account, host.cpp:39-81. Stored accounts are taken to be well formed, so that the
    assert at line 77 holds. *)
Definition get_account (w : world) (h : host) (a : N) (wr : bool) : option acct * host :=
  if is_precompile a then (Some acct0, h)
  else
    let fetch :=
      let '(ok, h1) := ask w h in
      if ok then let v := stored_acc (w_db w) a in (v, put_acc h1 a v wr)
      else (None, h1) in
    match h_acc h !! a with
    | Some (v, held) => if held || negb wr then (v, h) else fetch
    | None => fetch
    end.

(** get_account_storage, host.cpp:609-649. *)
Definition get_account_storage (w : world) (h : host) (k : N * N) (wr : bool) : option N * host :=
  if is_precompile (fst k) then (None, h)
  else
    let fetch :=
      let '(ok, h1) := ask w h in
      if ok then let v := d_sto (w_db w) !! k in (v, put_sto h1 k v wr)
      else (None, h1) in
    match h_sto h !! k with
    | Some (v, held) => if held || negb wr then (v, h) else fetch
    | None => fetch
    end.

(** get_account_code, host.cpp:651-684. *)
Definition get_account_code (w : world) (h : host) (a : N) (wr : bool) : option bytes * host :=
  if is_precompile a then (None, h)
  else
    let fetch :=
      let '(ok, h1) := ask w h in
      if ok then let v := d_code (w_db w) !! a in (v, put_code h1 a v wr)
      else (None, h1) in
    match h_code h !! a with
    | Some (v, held) => if held || negb wr then (v, h) else fetch
    | None => fetch
    end.

(** Something that either happens or ends the process: a failed assert, or
    bad_optional_access thrown in a noexcept function or on a thread of its own. *)
Inductive outcome (A : Type) := Fine (a : A) | Dead.
Arguments Fine {A} a.
Arguments Dead {A}.

(** set_storage, host.cpp:104-148. The assert at line 117 is evaluated when the account is
    absent under a read lock and present under the write lock. The last but two line stores
    the account back under whichever flag the cache has. *)
Definition set_storage (w : world) (h : host) (a k v : N) : outcome host :=
  let wr := negb (w_ro w) in
  let '(m, h1) := get_account w h a false in
  let prepared :=
    match m with
    | Some acc => Fine (acc, h1)
    | None =>
        let '(m2, h2) := if wr then get_account w h1 a true else (None, h1) in
        if w_dbg w && match m2 with Some _ => true | None => false end then Dead
        else Fine (acct0, put_acc h2 a (Some acct0) wr)
    end in
  match prepared with
  | Dead => Dead
  | Fine (acc, h3) =>
      let '(_, h4) := get_account_storage w h3 (a, k) wr in
      let h5 := put_sto h4 (a, k) (Some v) wr in
      let held := match h_acc h5 !! a with Some (_, f) => f | None => false end in
      Fine (put_acc h5 a (Some acc) held)
  end.

(** get_balance, host.cpp:150-160. *)
Definition get_balance (w : world) (h : host) (a : N) : N * host :=
  let '(m, h1) := get_account w h a false in
  (match m with Some acc => a_balance acc | None => 0 end, h1).

(** get_code_size, host.cpp:162-173. *)
Definition get_code_size (w : world) (h : host) (a : N) : nat * host :=
  if is_precompile a then (1%nat, h)
  else let '(m, h1) := get_account_code w h a false in
       (match m with Some c => length c | None => 0%nat end, h1).

(** transfer, host.cpp:548-574: the whole balance, and destruction of the account, when the
    value is zero. A missing sender fails the assert at line 555, and the access at line
    556 when asserts are compiled out. *)
Definition transfer (w : world) (h : host) (from to value : N) : outcome host :=
  let wr := negb (w_ro w) in
  let '(m, h1) := get_account w h from wr in
  match m with
  | None => Dead
  | Some acc =>
      let val := if value =? 0 then a_balance acc else value in
      let acc' := Acct (wsub (a_balance acc) val) (a_nonce acc)
                       (if value =? 0 then true else a_destruct acc) in
      let h2 := put_acc h1 from (Some acc') wr in
      let '(m2, h3) := get_account w h2 to wr in
      let to_acc := match m2 with Some x => x | None => acct0 end in
      Fine (put_acc h3 to
              (Some (Acct (wadd (a_balance to_acc) val) (a_nonce to_acc) (a_destruct to_acc))) wr)
  end.

(** selfdestruct, host.cpp:217-224. *)
Definition selfdestruct (w : world) (h : host) (a beneficiary : N) : outcome host :=
  transfer w h a beneficiary 0.

(** emit_log, host.cpp:386-403. *)
Definition emit_log (h : host) (l : evm_log) : host := set_logs h (h_logs h ++ [l]).

(** insert_account, host.cpp:541-546: std::unordered_map::insert keeps an entry that is
    there. *)
Definition insert_account (w : world) (h : host) (a : N) (acc : acct) : host :=
  let m := match h_acc h !! a with
           | Some _ => h_acc h
           | None => <[a := (Some acc, negb (w_ro w))]> (h_acc h)
           end in
  set_init (set_acc h m) m.

(** revert, host.cpp:594-596: the accounts, and only they. *)
Definition revert (h : host) : host := set_acc h (h_init h).

(** evmc_message: the fields the host looks at. [m_code] is code_address, [m_salt]
    create2_salt, [m_input] the init code of a creation. The depth is the position in the
    stack of frames. STATICCALL is a call with no value. *)
Inductive kind := KCall | KDelegateCall | KCallCode | KCreate | KCreate2.
Record msg := Msg {
  m_kind : kind;
  m_sender : N;
  m_recipient : N;
  m_code : N;
  m_value : N;
  m_gas : N;
  m_salt : N;
  m_input : bytes
}.

(** The status codes of evmc that the code tells apart: success, revert, any other failure
    of the execution (positive codes), and internal errors (negative codes). *)
Inductive status := Success | Revert | Failure | Internal.

(** A call or creation that is being executed: [f_new] is the address being created, if it
    is a creation; [f_self] the account the code runs as. *)
Record frame := Frame { f_new : option N; f_self : N; f_gas : N }.

(** What call or create do before the machine runs: return at once, or run code. *)
Inductive entered := Returned (s : status) (gas_left : N) | Running (f : frame).

(** create, host.cpp:226-262. *)
Definition enter_create (w : world) (h : host) (top : bool) (m : msg) : outcome (host * entered) :=
  let '(ms, h1) := get_account w h (m_sender m) false in
  match ms with
  | None => Fine (h1, Returned Revert 0)
  | Some sender =>
      let new_addr :=
        match m_kind m with
        | KCreate => w_caddr w (m_sender m) (a_nonce sender)
        | _ => w_caddr2 w (m_sender m) (m_salt m) (m_input m)
        end in
      match (if m_value m =? 0 then Fine h1 else transfer w h1 (m_sender m) new_addr (m_value m)) with
      | Dead => Dead
      | Fine h2 =>
          let h3 := if top then set_create h2 (Some new_addr) else h2 in
          Fine (h3, Running (Frame (Some new_addr) new_addr (m_gas m)))
      end
  end.

(** call, host.cpp:308-357. copy_code returns 0 for a precompile, whose code size is given
    as 1, which fails the assert at line 350. *)
Definition enter_call (w : world) (h : host) (m : msg) : outcome (host * entered) :=
  let native := negb (m_value m =? 0) && match m_kind m with KCall => true | _ => false end in
  match (if native then transfer w h (m_sender m) (m_recipient m) (m_value m) else Fine h) with
  | Dead => Dead
  | Fine h1 =>
      let code_addr := match m_kind m with
                       | KDelegateCall | KCallCode => m_code m
                       | _ => m_recipient m
                       end in
      let '(size, h2) := get_code_size w h1 code_addr in
      if Nat.eqb size 0 then
        Fine (if native then set_success h2 true else h2, Returned Success (m_gas m))
      else
        let '(c, h3) := get_account_code w h2 code_addr false in
        let n := match c with Some c => length c | None => 0%nat end in
        if w_dbg w && negb (Nat.eqb n size) then Dead
        else Fine (h3, Running (Frame None (m_recipient m) (m_gas m)))
  end.

(** call, host.cpp:308-311. *)
Definition enter (w : world) (h : host) (top : bool) (m : msg) : outcome (host * entered) :=
  match m_kind m with
  | KCreate | KCreate2 => enter_create w h top m
  | _ => enter_call w h m
  end.

Definition is_success (s : status) : bool := match s with Success => true | _ => false end.

(** What follows the execution: create, host.cpp:264-305, and call, host.cpp:359-371. *)
Definition leave (w : world) (h : host) (top : bool) (f : frame) (s : status) (out : bytes) : host :=
  let wr := negb (w_ro w) in
  let h1 :=
    match f_new f, is_success s with
    | Some a, true =>
        let '(m, h1) := get_account w h a wr in
        let acc := match m with Some x => x | None => acct0 end in
        let h2 := put_acc h1 a (Some acc) wr in
        let '(_, h3) := get_account_code w h2 a wr in
        put_code h3 a (Some out) wr
    | _, _ => h
    end in
  if top then set_success (set_out h1 out) (is_success s) else h1.

(** The callbacks of the virtual machine. *)
Inductive event :=
| EExists (a : N)
| EBalance (a : N)
| EGetStorage (a k : N)
| ESetStorage (a k v : N)
| ECodeSize (a : N)
| ECodeHash (a : N)
| ECopyCode (a : N)
| ESelfdestruct (a beneficiary : N)
| ELog (l : evm_log)
| EEnter (m : msg)
| ELeave (s : status) (gas_left : N) (out : bytes).

(** A run: the host, the frames being executed, innermost first, and the result of the
    outermost call once it has returned. *)
Record run := Run { r_host : host; r_stack : list frame; r_result : option (status * N) }.

(** Result of a step: [Stuck] is an event that cannot happen (a callback when nothing is
    being executed). *)
Inductive stepped := Stepped (r : run) | Died | Stuck.

Definition with_host (r : run) (o : outcome host) : stepped :=
  match o with Fine h => Stepped (Run h (r_stack r) (r_result r)) | Dead => Died end.

Definition step (w : world) (r : run) (e : event) : stepped :=
  let h := r_host r in
  match r_stack r with
  | [] => Stuck
  | f :: rest =>
      match e with
      | EExists a => with_host r (Fine (snd (get_account w h a false)))
      | EBalance a => with_host r (Fine (snd (get_balance w h a)))
      | EGetStorage a k => with_host r (Fine (snd (get_account_storage w h (a, k) false)))
      | ESetStorage a k v => with_host r (set_storage w h a k v)
      | ECodeSize a => with_host r (Fine (snd (get_code_size w h a)))
      | ECodeHash a => with_host r (Fine (snd (get_account_code w h a false)))
      | ECopyCode a => with_host r (Fine (snd (get_account_code w h a false)))
      | ESelfdestruct a b => with_host r (selfdestruct w h a b)
      | ELog l => with_host r (Fine (emit_log h l))
      | EEnter m =>
          match enter w h false m with
          | Dead => Died
          | Fine (h1, Returned _ _) => Stepped (Run h1 (f :: rest) None)
          | Fine (h1, Running f1) => Stepped (Run h1 (f1 :: f :: rest) None)
          end
      | ELeave s g out =>
          match rest with
          | [] => Stepped (Run (leave w h true f s out) [] (Some (s, g)))
          | _ => Stepped (Run (leave w h false f s out) rest None)
          end
      end
  end.

Fixpoint steps (w : world) (r : run) (es : list event) : stepped :=
  match es with
  | [] => Stepped r
  | e :: es' => match step w r e with Stepped r' => steps w r' es' | Died => Died | Stuck => Stuck end
  end.

(** check_base_gas, impl.cpp:447-460. *)
Definition min_gas (t : etx) : N := match x_to t with None => 53000 | Some _ => 21000 end.

(** make_message, impl.cpp:462-499. *)
Definition make_message (w : world) (from : N) (t : etx) : msg :=
  Msg (match x_to t with None => KCreate | Some _ => KCall end)
      from (match x_to t with Some a => a | None => 0 end) 0 (x_value t)
      (if w_ro w then 2 ^ 63 - 1 else low64 (wsub (x_limit t) (min_gas t))) 0 (x_input t).

(** The outermost call, impl.cpp:569 with host.cpp:308-373. *)
Definition start_exec (w : world) (h : host) (m : msg) : stepped :=
  match enter w h true m with
  | Dead => Died
  | Fine (h1, Returned s g) => Stepped (Run h1 [] (Some (s, g)))
  | Fine (h1, Running f) => Stepped (Run h1 [f] None)
  end.

(** How the start of a transaction ends: refused with an error, wounded, or on its way. *)
Inductive started := Refused | StartWounded | Begun (s : stepped).

(** run_execute_transaction, handle_lock_from_account and lock_ticket_number_key,
    impl.cpp:523-565 and 623-717: [locks] tells whether the requests for the sender's
    account, the transaction's identifier and the ticket number succeed. *)
Definition start (w : world) (locks : bool * bool * bool) (from : N) (t : etx) : started :=
  let m := make_message w from t in
  let '(l1, l2, l3) := locks in
  if (x_limit t <? min_gas t) && negb (w_ro w) then Refused
  else if w_ro w then Begun (start_exec w host0 m)
  else if negb l1 then StartWounded
  else
    let acc := match stored_acc (w_db w) from with Some a => a | None => acct0 end in
    if negb (wadd (a_nonce acc) 1 =? x_nonce t) then Refused
    else
      let cost := wmul (x_limit t) (x_price t) in
      let required := wadd (x_value t) cost in
      if a_balance acc <? required then Refused
      else
        let acc' := Acct (wsub (a_balance acc) cost) (wadd (a_nonce acc) 1) false in
        let h := insert_account w host0 from acc' in
        if negb (l2 && l3) then StartWounded
        else Begun (start_exec w h m).

(** finalize, host.cpp:576-592. The time stamp is left out. *)
Definition finalize (w : world) (h : host) (origin price gas_left gas_used : N) : outcome host :=
  let refunded :=
    if w_ro w then Fine h
    else
      let '(m, h1) := get_account w h origin true in
      match m with
      | None => Dead
      | Some acc =>
          Fine (put_acc h1 origin
                  (Some (Acct (wadd (a_balance acc) (wmul gas_left price)) (a_nonce acc)
                              (a_destruct acc))) true)
      end in
  match refunded with Dead => Dead | Fine h2 => Fine (set_gas h2 gas_used) end.

(** evm_tx_receipt, messages.hpp:104-126: without the transaction, the ticket number and
    the time stamp, which are copied. *)
Record receipt := Receipt {
  rc_success : bool;
  rc_create : option N;
  rc_gas : N;
  rc_logs : list evm_log;
  rc_out : bytes
}.

(** The state updates: [None] is the empty value, which deletes an account. The receipt
    is stored under the transaction's identifier, and its logs, by address, under keys
    made from the address and the ticket number. *)
Record updates := Updates {
  u_acc : gmap N (option (N * N));
  u_code : gmap N bytes;
  u_sto : gmap (N * N) N;
  u_receipt : receipt
}.

Definition acc_update (e : option acct * bool) : option (option (N * N)) :=
  match e with
  | (Some a, true) => Some (if a_destruct a then None else Some (a_balance a, a_nonce a))
  | _ => None
  end.
Definition plain_update {A} (e : option A * bool) : option A :=
  match e with (Some a, true) => Some a | _ => None end.

(** get_state_updates, host.cpp:481-535. *)
Definition state_updates (h : host) : updates :=
  Updates (omap acc_update (h_acc h)) (omap plain_update (h_code h)) (omap plain_update (h_sto h))
          (Receipt (h_success h) (h_create h) (h_gas h) (h_logs h) (h_out h)).

(** How a transaction ends. *)
Inductive ending := Done (u : updates) | Error | Wounded | ProcessEnds.

(** exec after the outermost call, impl.cpp:570-595. The requests for the index keys of the
    logs are left out: their answers are not looked at (impl.cpp:598-621). *)
Definition conclude (w : world) (from : N) (t : etx) (h : host) (s : status) (gas_left : N) : ending :=
  match s with
  | Internal => Error
  | _ =>
      if h_retry h then Wounded
      else
        let h1 := match s with Revert => revert h | _ => h end in
        let gas_used := low64 (m_gas (make_message w from t) + 2 ^ 64 - gas_left) in
        match finalize w h1 from (x_price t) gas_left gas_used with
        | Dead => ProcessEnds
        | Fine h2 => Done (state_updates h2)
        end
  end.

(** The whole execution of a transaction when the machine makes the callbacks [es];
    [None] when [es] is not a complete run. *)
Definition execute (w : world) (locks : bool * bool * bool) (from : N) (t : etx)
    (es : list event) : option ending :=
  match start w locks from t with
  | Refused => Some Error
  | StartWounded => Some Wounded
  | Begun Died => Some ProcessEnds
  | Begun Stuck => None
  | Begun (Stepped r) =>
      match steps w r es with
      | Stuck => None
      | Died => Some ProcessEnds
      | Stepped r' =>
          match r_result r' with
          | Some (s, g) => Some (conclude w from t (r_host r') s g)
          | None => None
          end
      end
  end.

(** What the shards hold once the updates are committed (C39). *)
Definition apply_updates (d : db) (u : updates) : db :=
  Db (merge (fun o n => match n with Some v => v | None => o end) (d_acc d) (u_acc u))
     (u_code u ∪ d_code d)
     (u_sto u ∪ d_sto d).
