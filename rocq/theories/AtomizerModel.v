(** The atomizer: src/uhs/atomizer/atomizer/{atomizer,state_machine,atomizer_raft}.cpp.

    Unordered containers are the lists of their elements (see [emplace_map] and
    [emplace_set] in CodecModel.v). A compact_tx used as a key is compared by its ID
    (compact_tx::operator==, transaction.cpp:122-124). *)
From Coq Require Import NArith List Bool.
From stdpp Require Import base decidable list gmap.
From Verif Require Import Base CodecModel TxModel MsgModel.
Import ListNotations.
Open Scope N_scope.

(** watchtower::tx_error and its variants, watchtower/tx_error_messages.hpp:50-220. *)
Inductive err_info :=
| ESync
| EInputsDne (ids : list N)
| EStxoRange
| EIncomplete
| EInputsSpent (ids : list N).
Record tx_err := TxErr { te_id : hash; te_info : err_info }.

#[global] Instance err_info_eq_dec : EqDecision err_info.
Proof. solve_decision. Defined.
#[global] Instance tx_err_eq_dec : EqDecision tx_err.
Proof. solve_decision. Defined.
#[global] Instance block_eq_dec : EqDecision block.
Proof. solve_decision. Defined.

(** The members of atomizer, atomizer.hpp:119-134: m_txs, m_complete_txs, m_spent,
    m_best_height, m_spent_cache_depth. *)
Record atomizer := Atomizer {
  at_txs : list (list (compact_tx * list N));
  at_complete : list compact_tx;
  at_spent : list (list N);
  at_height : N;
  at_depth : N }.

(** What a call does. [Undefined]: an access outside a vector. [Hang]: the loop of
    check_stxo_cache never ends. *)
Inductive aout (A : Type) :=
| ADone (a : A)
| AUndefined
| AHang.
Arguments ADone {A}. Arguments AUndefined {A}. Arguments AHang {A}.

Definition abind {A B} (x : aout A) (f : A -> aout B) : aout B :=
  match x with ADone a => f a | AUndefined => AUndefined | AHang => AHang end.

(** atomizer::atomizer, atomizer.cpp:166-172. *)
Definition atomizer_new (height depth : N) : atomizer :=
  Atomizer (repeat [] (S (N.to_nat depth))) [] (repeat [] (S (N.to_nat depth))) height depth.

(** get_notification_offset, atomizer.cpp:201-206. *)
Definition notification_offset (a : atomizer) (h : N) : N := sub64 (at_height a) h.

(** check_notification_offset, atomizer.cpp:208-219. *)
Definition check_notification_offset (a : atomizer) (off : N) (t : compact_tx) : option tx_err :=
  if (at_depth a <? off) && negb (bool_decide (ctx_inputs t = []))
  then Some (TxErr (ctx_id t) EStxoRange) else None.

(** The two loops of check_stxo_cache, atomizer.cpp:228-234, over the layers of m_spent
    they visit. *)
Definition spent_inputs (layers : list (list N)) (ins : list N) : list N :=
  fold_left (fun acc layer =>
    fold_left (fun acc x => if bool_decide (x ∈ layer) then emplace_set acc x else acc) ins acc)
    layers [].

(** check_stxo_cache, atomizer.cpp:221-243. The inner loop alone touches m_spent. With
    [range] = 2^64 - 1 the condition [offset <= range] is always true. *)
Definition check_stxo_cache (a : atomizer) (t : compact_tx) (range : N) : aout (option tx_err) :=
  match ctx_inputs t with
  | [] => if range =? two64 - 1 then AHang else ADone None
  | ins =>
      if len (at_spent a) <=? range then AUndefined
      else match spent_inputs (firstn (S (N.to_nat range)) (at_spent a)) ins with
           | [] => ADone None
           | ids => ADone (Some (TxErr (ctx_id t) (EInputsSpent ids)))
           end
  end.

(** add_tx_to_stxo_cache, atomizer.cpp:245-250. *)
Definition add_tx_to_stxo_cache (a : atomizer) (t : compact_tx) : aout atomizer :=
  match at_spent a with
  | [] => AUndefined
  | l :: r => ADone (Atomizer (at_txs a) (at_complete a)
                       (fold_left emplace_set (ctx_inputs t) l :: r) (at_height a) (at_depth a))
  end.

Definition push_complete (a : atomizer) (t : compact_tx) : atomizer :=
  Atomizer (at_txs a) (at_complete a ++ [t]) (at_spent a) (at_height a) (at_depth a).

(** atomizer::insert_complete, atomizer.cpp:134-156. *)
Definition insert_complete (a : atomizer) (oldest : N) (t : compact_tx)
  : aout (atomizer * option tx_err) :=
  let off := notification_offset a oldest in
  match check_notification_offset a off t with
  | Some e => ADone (a, Some e)
  | None =>
      abind (check_stxo_cache a t off) (fun e =>
        match e with
        | Some e => ADone (a, Some e)
        | None => abind (add_tx_to_stxo_cache a t) (fun a' => ADone (push_complete a' t, None))
        end)
  end.

(** unordered_map::find with a compact_tx as the key. *)
Definition pend_find {V} (m : list (compact_tx * V)) (id : hash) : option (compact_tx * V) :=
  List.find (fun p => ctx_id (fst p) =? id) m.

(** [it->second = v] for the entry of [id]. *)
Definition pend_set {V} (m : list (compact_tx * V)) (id : hash) (v : V) : list (compact_tx * V) :=
  map (fun p => if ctx_id (fst p) =? id then (fst p, v) else p) m.

(** unordered_map::erase / extract. *)
Definition pend_erase {V} (m : list (compact_tx * V)) (id : hash) : list (compact_tx * V) :=
  List.filter (fun p => negb (ctx_id (fst p) =? id)) m.

(** The loop of insert over the offsets, atomizer.cpp:76-97: all attestations, the last
    offset with an entry and that entry's key. *)
Fixpoint gather (layers : list (list (compact_tx * list N))) (off : N) (id : hash)
    (total : list N) (oldest : N * option compact_tx) : list N * (N * option compact_tx) :=
  match layers with
  | [] => (total, oldest)
  | m :: r =>
      match pend_find m id with
      | Some (k, atts) => gather r (off + 1) id (fold_left emplace_set atts total) (off, Some k)
      | None => gather r (off + 1) id total oldest
      end
  end.

(** atomizer::insert, atomizer.cpp:44-132. *)
Definition insert (a : atomizer) (h : N) (t : compact_tx) (atts : list N)
  : aout (atomizer * option tx_err) :=
  let off := notification_offset a h in
  match check_notification_offset a off t with
  | Some e => ADone (a, Some e)
  | None =>
      match (if len (at_txs a) <=? off then None else at_txs a !! N.to_nat off) with
      | None => AUndefined
      | Some m =>
          let '(key, m') :=
            match pend_find m (ctx_id t) with
            | None => (t, m ++ [(t, atts)])
            | Some (k, old) => (k, pend_set m (ctx_id t) (fold_left emplace_set atts old))
            end in
          let a1 := Atomizer (<[N.to_nat off := m']> (at_txs a)) (at_complete a) (at_spent a)
                      (at_height a) (at_depth a) in
          let '(total, (oldest, okey)) :=
            gather (firstn (S (N.to_nat (at_depth a))) (at_txs a1)) 0 (ctx_id t) [] (0, None) in
          if len total =? len (ctx_inputs key) then
            abind (check_stxo_cache a1 key oldest) (fun e =>
              match e with
              | Some e => ADone (a1, Some e)
              | None =>
                  abind (add_tx_to_stxo_cache a1 key) (fun a2 =>
                    let a3 := Atomizer (map (fun m => pend_erase m (ctx_id t)) (at_txs a2))
                                (at_complete a2) (at_spent a2) (at_height a2) (at_depth a2) in
                    match okey with
                    | Some k => ADone (push_complete a3 k, None)
                    | None => ADone (a3, None)
                    end)
              end)
          else ADone (a1, None)
      end
  end.

(** atomizer::make_block, atomizer.cpp:14-42. *)
Definition make_block (a : atomizer) : aout (atomizer * (block * list tx_err)) :=
  match at_txs a !! N.to_nat (at_depth a) with
  | None => AUndefined
  | Some old =>
      let d := N.to_nat (at_depth a) in
      let h := add64 (at_height a) 1 in
      ADone (Atomizer ([] :: firstn d (at_txs a)) [] ([] :: firstn d (at_spent a)) h (at_depth a),
             (Block h (at_complete a), map (fun p => TxErr (ctx_id (fst p)) EIncomplete) old))
  end.

(** ** The replicated state machine, state_machine.cpp *)

Inductive sm_request :=
| QAgg (txs : list (N * compact_tx))
| QMakeBlock
| QGetBlock (h : N)
| QPrune (h : N).
Inductive sm_response :=
| SBlock (b : block) (errs : list tx_err)
| SGet (b : block)
| SErrors (errs : list tx_err).

(** m_atomizer and m_blocks. *)
Record sm := Sm { sm_at : atomizer; sm_blocks : list (N * block) }.

(** state_machine::state_machine without a snapshot, state_machine.cpp:22-40. *)
Definition sm_new (depth : N) : sm := Sm (atomizer_new 0 depth) [].

(** The loop over m_agg_txs, state_machine.cpp:54-64. *)
Fixpoint insert_all (a : atomizer) (txs : list (N * compact_tx)) : aout (atomizer * list tx_err) :=
  match txs with
  | [] => ADone (a, [])
  | (h, t) :: r =>
      abind (insert_complete a h t) (fun '(a1, e) =>
      abind (insert_all a1 r) (fun '(a2, es) =>
        ADone (a2, match e with Some e => e :: es | None => es end)))
  end.

Definition block_find (m : list (N * block)) (h : N) : option block :=
  snd <$> List.find (fun p => fst p =? h) m.

(** state_machine::commit, state_machine.cpp:42-101. *)
Definition sm_commit (s : sm) (r : sm_request) : aout (sm * option sm_response) :=
  match r with
  | QAgg txs =>
      abind (insert_all (sm_at s) txs) (fun '(a, es) =>
        ADone (Sm a (sm_blocks s), match es with [] => None | _ => Some (SErrors es) end))
  | QMakeBlock =>
      abind (make_block (sm_at s)) (fun '(a, (b, es)) =>
        ADone (Sm a (emplace_map (sm_blocks s) (blk_height b) b), Some (SBlock b es)))
  | QGetBlock h =>
      ADone (s, SGet <$> block_find (sm_blocks s) h)
  | QPrune h =>
      ADone (Sm (sm_at s) (List.filter (fun p => negb (blk_height (snd p) <? h)) (sm_blocks s)), None)
  end.

Fixpoint sm_run (s : sm) (rs : list sm_request) : aout (sm * list (option sm_response)) :=
  match rs with
  | [] => ADone (s, [])
  | r :: rest =>
      abind (sm_commit s r) (fun '(s1, x) =>
      abind (sm_run s1 rest) (fun '(s2, xs) => ADone (s2, x :: xs)))
  end.

(** ** Aggregation of the shards' notifications by an atomizer node, atomizer_raft.cpp *)

(** tx_notify_request, messages.hpp:21-31. *)
Record notif := Notif { nt_tx : compact_tx; nt_atts : list N; nt_height : N }.

(** m_txs and m_complete_txs of atomizer_raft. An attestation is the pair of an input
    index and a height; the set compares the index alone (attestation_cmp,
    atomizer_raft.cpp:140-144). *)
Record agg := Agg {
  ag_txs : list (compact_tx * list (N * N));
  ag_complete : list (N * compact_tx) }.
Definition agg_new : agg := Agg [] [].

(** The loop that computes the oldest attestation, atomizer_raft.cpp:107-112. *)
Definition oldest_of (atts : list (N * N)) : N :=
  fold_left (fun o p => if (o =? 0) || (snd p <? o) then snd p else o) atts 0.

(** atomizer_raft::tx_notify, atomizer_raft.cpp:55-120. [attested] is check_attestations.
    insert does nothing when the index is already in the set, whatever the heights. *)
Definition tx_notify (attested : compact_tx -> bool) (g : agg) (n : notif) : agg :=
  if negb (attested (nt_tx n)) then g else
  let add := fold_left (fun s i => emplace_map s i (nt_height n)) (nt_atts n) in
  let '(key, atts, m) :=
    match pend_find (ag_txs g) (ctx_id (nt_tx n)) with
    | Some (k, old) => (k, add old, pend_set (ag_txs g) (ctx_id (nt_tx n)) (add old))
    | None => (nt_tx n, add [], ag_txs g ++ [(nt_tx n, add [])])
    end in
  if len atts =? len (ctx_inputs key)
  then Agg (pend_erase m (ctx_id (nt_tx n))) (ag_complete g ++ [(oldest_of atts, key)])
  else Agg m (ag_complete g).

(** atomizer_raft::send_complete_txs, atomizer_raft.cpp:122-133: what is replicated and
    what is left. *)
Definition send_complete_txs (g : agg) : agg * list (N * compact_tx) :=
  (Agg (ag_txs g) [], ag_complete g).
