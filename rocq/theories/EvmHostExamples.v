(** Concrete EVM transactions: cases that meet the hypotheses of the theorems, and cases
    that refute the unrestricted properties. *)
From Coq Require Import NArith List Bool Lia.
From stdpp Require Import gmap.
From Verif Require Import Base EvmHostModel EvmHostSpec EvmHostProofs EvmHostFinal.
Import ListNotations.
Open Scope N_scope.

Definition alice : N := 2 ^ 20.
Definition bob : N := 2 ^ 21.
Definition shop : N := 2 ^ 22.
Definition till : N := 2 ^ 23.

(** Two injective functions giving contract addresses. *)
Definition ex_caddr (s n : N) : N := 2 ^ 520 + s * 2 ^ 256 + n.
Definition ex_caddr2 (s salt : N) (c : bytes) : N := 2 ^ 600 + s * 2 ^ 256 + salt.

Definition ex_db : db :=
  Db {[alice := (1000000, 4); bob := (50, 0); shop := (10, 0); till := (0, 0)]}
     {[shop := [1; 2]; till := [3]]} ∅.
Definition ex_world : world := World ex_db (fun _ => true) false false ex_caddr ex_caddr2.
Definition free : bool * bool * bool := (true, true, true).

Lemma ex_plain a : a < 2 ^ 256 -> is_precompile a = false -> plain_address ex_caddr ex_caddr2 a.
Proof.
  intros L P. split_and!; [exact P| |].
  - intros s n E. unfold ex_caddr in E. assert (2 ^ 256 < 2 ^ 520) by reflexivity. lia.
  - intros s n c E. unfold ex_caddr2 in E. assert (2 ^ 256 < 2 ^ 600) by reflexivity. lia.
Qed.
Lemma ex_alice : plain_account ex_world alice.
Proof. split; [now apply ex_plain|reflexivity]. Qed.

(** Every account of a map is well formed. *)
Definition db_okb (d : db) : bool :=
  forallb (fun p => (fst (snd p) <? two256) && (snd (snd p) <? two256)) (map_to_list (d_acc d)).
Lemma db_okb_ok d : db_okb d = true -> db_ok d.
Proof.
  unfold db_okb. intros H a b n E. rewrite forallb_forall in H.
  assert (I : In (a, (b, n)) (map_to_list (d_acc d))) by (apply elem_of_list_In, elem_of_map_to_list, E).
  specialize (H _ I). apply andb_true_iff in H. cbn in H. rewrite !N.ltb_lt in H. exact H.
Qed.

(** A purchase: value, storage, a payment to bob and a log. *)
Definition ex_log : evm_log := EvmLog shop [7] [1].
Definition ex_buy : etx := Etx (Some shop) 7 5 2 30000 [].
Definition ex_buy_run : list event :=
  [EBalance shop; ESetStorage shop 1 42;
   EEnter (Msg KCall shop bob bob 5 1000 0 []); ELog ex_log; ELeave Success 4000 [9]].

Definition ex_updates : updates :=
  match execute ex_world free alice ex_buy ex_buy_run with Some (Done u) => u
  | _ => Updates ∅ ∅ ∅ (Receipt false None 0 [] []) end.

Lemma ex_buy_done : execute ex_world free alice ex_buy ex_buy_run = Some (Done ex_updates).
Proof. vm_compute. reflexivity. Qed.
Lemma ex_buy_effect :
  balance (apply_updates ex_db ex_updates) alice = 1000000 - 7 - 26000 * 2 /\
  balance (apply_updates ex_db ex_updates) bob = 55 /\
  balance (apply_updates ex_db ex_updates) shop = 12 /\
  rc_gas (u_receipt ex_updates) = 5000 /\ rc_success (u_receipt ex_updates) = true.
Proof. vm_compute. auto 10. Qed.

Lemma ex_buy_honest : machine_honest ex_world free alice ex_buy ex_buy_run.
Proof.
  vm_compute. split_and!; auto; try discriminate. right. discriminate.
Qed.
Lemma ex_db_ok : db_ok ex_db.
Proof. apply db_okb_ok. reflexivity. Qed.
Lemma ex_addresses : addresses_ok ex_world.
Proof.
  split; cbn; intros.
  - unfold is_precompile. replace (ex_caddr s n <? 65536) with false; [reflexivity|].
    symmetry. apply N.ltb_ge. unfold ex_caddr. assert (65536 <= 2 ^ 520) by discriminate. lia.
  - unfold is_precompile. replace (ex_caddr2 s salt c <? 65536) with false; [reflexivity|].
    symmetry. apply N.ltb_ge. unfold ex_caddr2. assert (65536 <= 2 ^ 600) by discriminate. lia.
Qed.
Lemma ex_buy_keeps : Forall (keeps_value ex_world) ex_buy_run.
Proof. repeat (constructor; cbn; auto). Qed.

Lemma ex_meets :
  w_ro ex_world = false /\ db_ok (w_db ex_world) /\ plain_account ex_world alice /\
  x_limit ex_buy < 2 ^ 64 /\ no_wrap ex_buy /\ total (w_db ex_world) < two256 /\ addresses_ok ex_world /\
  (forall a, x_to ex_buy = Some a -> is_precompile a = false) /\ Forall (keeps_value ex_world) ex_buy_run /\
  machine_honest ex_world free alice ex_buy ex_buy_run /\
  execute ex_world free alice ex_buy ex_buy_run = Some (Done ex_updates).
Proof.
  split_and!.
  - reflexivity.
  - exact ex_db_ok.
  - exact ex_alice.
  - reflexivity.
  - reflexivity.
  - reflexivity.
  - exact ex_addresses.
  - intros a [= <-]. reflexivity.
  - exact ex_buy_keeps.
  - exact ex_buy_honest.
  - exact ex_buy_done.
Qed.

Lemma ex_history : history ex_caddr ex_caddr2 ex_db [(alice, ex_buy)] (apply_updates ex_db ex_updates).
Proof.
  apply (HSnoc ex_caddr ex_caddr2 ex_db [] ex_db (fun _ => true) false free alice ex_buy ex_buy_run ex_updates).
  - constructor.
  - now apply ex_plain.
  - exact ex_buy_honest.
  - exact ex_buy_done.
Qed.

(** ** A transaction that is reverted without having written storage *)
Definition ex_back_run : list event :=
  [EBalance shop; EEnter (Msg KCall shop bob bob 5 1000 0 []); ELeave Revert 4000 []].
Lemma ex_back_case : exists u,
  execute ex_world free alice ex_buy ex_back_run = Some (Done u) /\
  call_status ex_world free alice ex_buy ex_back_run = Some Revert /\
  machine_honest ex_world free alice ex_buy ex_back_run /\
  Forall writes_nothing ex_back_run.
Proof.
  eexists. split_and!.
  - vm_compute. reflexivity.
  - reflexivity.
  - vm_compute. split_and!; auto; try discriminate. right. discriminate.
  - repeat (constructor; cbn; auto); try split; discriminate.
Qed.

Ltac settle :=
  match goal with
  | |- db_ok _ => apply db_okb_ok; vm_compute; reflexivity
  | |- plain_account _ _ => split; [now apply ex_plain|vm_compute; reflexivity]
  | |- machine_honest _ _ _ _ _ => vm_compute; split_and?; auto; try discriminate; right; discriminate
  | |- _ <> _ => vm_compute; discriminate
  | |- forall _ : nat, _ => reflexivity
  | |- _ = _ => vm_compute; reflexivity
  | |- _ < _ => vm_compute; reflexivity
  | |- no_wrap _ => vm_compute; reflexivity
  end.

(** ** The gas price is multiplied modulo 2^256 *)
Definition poor_db : db := Db ∅ ∅ ∅.
Definition poor : world := World poor_db (fun _ => true) false false ex_caddr ex_caddr2.
Definition gas_wraps : etx := Etx (Some bob) 0 1 (2 ^ 252) 21008 [].
Lemma poor_plain : plain_account poor alice.
Proof. split; [now apply ex_plain|reflexivity]. Qed.
Lemma poor_ok : db_ok poor_db.
Proof. apply db_okb_ok. reflexivity. Qed.

Lemma gas_wraps_case : exists w locks from t es u,
  w_ro w = false /\ db_ok (w_db w) /\ plain_account w from /\ x_limit t < 2 ^ 64 /\
  x_price t < two256 /\ x_value t < two256 /\
  machine_honest w locks from t es /\ execute w locks from t es = Some (Done u) /\
  total (w_db w) < total (apply_updates (w_db w) u) /\
  balance (w_db w) from = 0 /\ balance (apply_updates (w_db w) u) from = 2 ^ 255.
Proof.
  exists poor, free, alice, gas_wraps, [].
  exists (match execute poor free alice gas_wraps [] with Some (Done u) => u
          | _ => Updates ∅ ∅ ∅ (Receipt false None 0 [] []) end).
  split_and!; settle.
Qed.

(** ** The value is added to the cost modulo 2^256 *)
Definition value_wraps : etx := Etx (Some bob) (2 ^ 256 - 21000) 1 1 21000 [].
Lemma value_wraps_case : exists w locks from to t es u,
  w_ro w = false /\ db_ok (w_db w) /\ plain_account w from /\ x_limit t < 2 ^ 64 /\
  x_limit t * x_price t < two256 /\ x_value t < two256 /\
  machine_honest w locks from t es /\ execute w locks from t es = Some (Done u) /\
  total (w_db w) < total (apply_updates (w_db w) u) /\
  balance (w_db w) from = 0 /\ balance (apply_updates (w_db w) u) to = 2 ^ 256 - 21000.
Proof.
  exists poor, free, alice, bob, value_wraps, [].
  exists (match execute poor free alice value_wraps [] with Some (Done u) => u
          | _ => Updates ∅ ∅ ∅ (Receipt false None 0 [] []) end).
  split_and!; settle.
Qed.

(** ** A reverted transaction keeps what it wrote to storage, and its logs *)
Definition ex_keep_run : list event := [ESetStorage shop 1 42; ELog ex_log; ELeave Revert 4000 []].
Lemma revert_storage_case : exists w locks from t es u k v,
  w_ro w = false /\ db_ok (w_db w) /\ plain_account w from /\ no_wrap t /\
  machine_honest w locks from t es /\ execute w locks from t es = Some (Done u) /\
  call_status w locks from t es = Some Revert /\
  d_sto (w_db w) !! k = None /\ d_sto (apply_updates (w_db w) u) !! k = Some v /\
  rc_logs (u_receipt u) <> [].
Proof.
  exists ex_world, free, alice, ex_buy, ex_keep_run.
  exists (match execute ex_world free alice ex_buy ex_keep_run with Some (Done u) => u
          | _ => Updates ∅ ∅ ∅ (Receipt false None 0 [] []) end), (shop, 1), 42.
  split_and!; settle.
Qed.

(** ** A transaction that fails otherwise keeps everything *)
Lemma failure_keeps_case : exists w locks from to t es u,
  w_ro w = false /\ db_ok (w_db w) /\ plain_account w from /\ no_wrap t /\ to <> from /\
  machine_honest w locks from t es /\ execute w locks from t es = Some (Done u) /\
  call_status w locks from t es = Some Failure /\
  balance (w_db w) to < balance (apply_updates (w_db w) u) to.
Proof.
  exists ex_world, free, alice, shop, ex_buy, [ELeave Failure 0 []].
  exists (match execute ex_world free alice ex_buy [ELeave Failure 0 []] with Some (Done u) => u
          | _ => Updates ∅ ∅ ∅ (Receipt false None 0 [] []) end).
  split_and!; settle.
Qed.

(** ** A call that is reverted inside a transaction keeps its effects *)
Definition ex_inner_run : list event :=
  [EEnter (Msg KCall shop till till 3 2000 0 []); ESetStorage till 8 9; ELeave Revert 100 [];
   ELeave Success 1000 []].
Lemma inner_revert_case : exists w locks from t es u inner k,
  w_ro w = false /\ db_ok (w_db w) /\ plain_account w from /\ no_wrap t /\
  es = [EEnter inner; ESetStorage (m_recipient inner) k 9; ELeave Revert 100 []; ELeave Success 1000 []] /\
  machine_honest w locks from t es /\ execute w locks from t es = Some (Done u) /\
  balance (w_db w) (m_recipient inner) < balance (apply_updates (w_db w) u) (m_recipient inner) /\
  d_sto (w_db w) !! (m_recipient inner, k) <> d_sto (apply_updates (w_db w) u) !! (m_recipient inner, k).
Proof.
  exists ex_world, free, alice, ex_buy, ex_inner_run.
  exists (match execute ex_world free alice ex_buy ex_inner_run with Some (Done u) => u
          | _ => Updates ∅ ∅ ∅ (Receipt false None 0 [] []) end), (Msg KCall shop till till 3 2000 0 []), 8.
  split_and!; settle.
Qed.

(** ** A contract's second creation replaces the code of its first *)
Lemma ex_injective s n s' n' : n < 2 ^ 256 -> n' < 2 ^ 256 ->
  ex_caddr s n = ex_caddr s' n' -> s = s' /\ n = n'.
Proof.
  unfold ex_caddr. intros L1 L2 E. assert (P : 2 ^ 256 <> 0) by discriminate.
  set (q := 2 ^ 256) in *. set (k := 2 ^ 520) in *. clearbody q k.
  assert (E' : s * q + n = s' * q + n') by lia.
  assert (S : s = s').
  { assert (A : (s * q + n) / q = s) by (rewrite N.div_add_l by exact P; rewrite N.div_small by exact L1; lia).
    assert (B : (s' * q + n') / q = s') by (rewrite N.div_add_l by exact P; rewrite N.div_small by exact L2; lia).
    congruence. }
  subst. lia.
Qed.

Lemma code_replaced_case : exists caddr caddr2 d d1 d2 l1 l2 a c1 c2,
  (forall s n s' n', n < 2 ^ 256 -> n' < 2 ^ 256 -> caddr s n = caddr s' n' -> s = s' /\ n = n') /\
  db_ok d /\ (forall x, plain_address caddr caddr2 x -> code_len d x = 0%nat) /\
  history caddr caddr2 d l1 d1 /\ history caddr caddr2 d (l1 ++ l2) d2 /\
  d_code d1 !! a = Some c1 /\ c1 <> [] /\ d_code d2 !! a = Some c2 /\ c1 <> c2.
Proof.
  exists ex_caddr, ex_caddr2.
  (* the two contracts of the initial state are taken to have been made before *)
  exists (Db {[alice := (1000000, 4); ex_caddr 1 0 := (10, 0)]} {[ex_caddr 1 0 := [1; 2]]} ∅).
  set (d := Db _ _ _). set (shop' := ex_caddr 1 0).
  set (w := World d (fun _ => true) false false ex_caddr ex_caddr2).
  set (mk := fun code : bytes => [EEnter (Msg KCreate shop' 0 0 0 2000 0 []); ELeave Success 100 code; ELeave Success 1000 []]).
  set (t1 := Etx (Some shop') 0 5 2 30000 []). set (t2 := Etx (Some shop') 0 6 2 30000 []).
  set (u1 := match execute w free alice t1 (mk [1]) with Some (Done u) => u
             | _ => Updates ∅ ∅ ∅ (Receipt false None 0 [] []) end).
  set (w2 := World (apply_updates d u1) (fun _ => true) false false ex_caddr ex_caddr2).
  set (u2 := match execute w2 free alice t2 (mk [2]) with Some (Done u) => u
             | _ => Updates ∅ ∅ ∅ (Receipt false None 0 [] []) end).
  exists (apply_updates d u1), (apply_updates (apply_updates d u1) u2), [(alice, t1)], [(alice, t2)].
  exists (ex_caddr shop' 0), [1], [2].
  assert (H1 : history ex_caddr ex_caddr2 d [(alice, t1)] (apply_updates d u1)).
  { apply (HSnoc ex_caddr ex_caddr2 d [] d (fun _ => true) false free alice t1 (mk [1]) u1).
    - constructor.
    - now apply ex_plain.
    - vm_compute. split_and!; auto; discriminate.
    - vm_compute. reflexivity. }
  split_and!.
  - exact ex_injective.
  - apply db_okb_ok. reflexivity.
  - intros x (_ & Hx & _). unfold code_len. cbn [d_code d]. rewrite lookup_singleton_ne; [reflexivity|apply Hx].
  - exact H1.
  - apply (HSnoc ex_caddr ex_caddr2 d [(alice, t1)] (apply_updates d u1) (fun _ => true) false free alice t2 (mk [2]) u2).
    + exact H1.
    + now apply ex_plain.
    + vm_compute. split_and!; auto; discriminate.
    + vm_compute. reflexivity.
  - vm_compute. reflexivity.
  - discriminate.
  - vm_compute. reflexivity.
  - discriminate.
Qed.

(** ** A call that succeeds is recorded as failed *)
Definition ex_ping : etx := Etx (Some bob) 0 5 2 30000 [].
Lemma receipt_case : exists w locks from t es u,
  w_ro w = false /\ db_ok (w_db w) /\ plain_account w from /\ no_wrap t /\
  machine_honest w locks from t es /\ execute w locks from t es = Some (Done u) /\
  call_status w locks from t es = Some Success /\ rc_success (u_receipt u) = false.
Proof.
  exists ex_world, free, alice, ex_ping, [].
  exists (match execute ex_world free alice ex_ping [] with Some (Done u) => u
          | _ => Updates ∅ ∅ ∅ (Receipt false None 0 [] []) end).
  split_and!; settle.
Qed.

(** ** Transactions that end the agent *)
(** A constructor without endowment that destroys itself. *)
Definition ex_create : etx := Etx None 0 5 2 60000 [].
Lemma destroy_case : exists w locks from t es,
  w_ro w = false /\ w_dbg w = false /\ (forall i, w_env w i = true) /\ db_ok (w_db w) /\
  plain_account w from /\ no_wrap t /\ machine_honest w locks from t es /\
  execute w locks from t es = Some ProcessEnds.
Proof.
  exists ex_world, free, alice, ex_create, [ESelfdestruct (ex_caddr alice 5) alice].
  split_and!; settle.
Qed.
(** A lock request that is refused while a contract pays. *)
Definition ex_visit : etx := Etx (Some shop) 0 5 2 30000 [].
Lemma wounded_case : exists w locks from t es,
  w_ro w = false /\ w_dbg w = false /\ db_ok (w_db w) /\
  plain_account w from /\ no_wrap t /\ machine_honest w locks from t es /\
  (forall r, start w locks from t = Begun (Stepped r) -> destroys_existing w r es) /\
  execute w locks from t es = Some ProcessEnds.
Proof.
  exists (World ex_db (fun i => Nat.ltb i 2) false false ex_caddr ex_caddr2), free, alice, ex_visit,
    [EBalance shop; EEnter (Msg KCall shop bob bob 5 1000 0 [])].
  split_and!; try settle.
  intros r E. vm_compute in E. injection E as <-. vm_compute. auto.
Qed.
(** A dry run that sends value from an account that does not exist. *)
Lemma dry_run_case : exists w locks from t es,
  w_ro w = true /\ w_dbg w = false /\ (forall i, w_env w i = true) /\ db_ok (w_db w) /\ plain_account w from /\
  no_wrap t /\ machine_honest w locks from t es /\ execute w locks from t es = Some ProcessEnds.
Proof.
  exists (World ex_db (fun _ => true) true false ex_caddr ex_caddr2), free, (2 ^ 30), (Etx (Some bob) 1 0 0 0 []), [].
  split_and!; try settle.
Qed.
(** A call of a precompile, when asserts are compiled in. *)
Lemma precompile_case : exists w locks from t es,
  w_ro w = false /\ w_dbg w = true /\ (forall i, w_env w i = true) /\ db_ok (w_db w) /\ plain_account w from /\
  no_wrap t /\ x_to t = Some 1 /\ machine_honest w locks from t es /\
  (forall r, start w locks from t = Begun (Stepped r) -> destroys_existing w r es) /\
  execute w locks from t es = Some ProcessEnds.
Proof.
  exists (World ex_db (fun _ => true) false true ex_caddr ex_caddr2), free, alice, (Etx (Some 1) 0 5 2 30000 []), [].
  split_and!; try settle.
  intros r E. vm_compute in E. discriminate.
Qed.

(** ** A dry run that does much *)
Definition ex_dry : world := World ex_db (fun _ => true) true false ex_caddr ex_caddr2.
Lemma ex_dry_case : exists u, execute ex_dry free alice ex_buy ex_buy_run = Some (Done u) /\
  rc_success (u_receipt u) = true /\ rc_out (u_receipt u) = [9].
Proof. eexists. split; [vm_compute; reflexivity|]. auto. Qed.

(** ** A creation *)
Lemma ex_create_case : exists u,
  execute ex_world free alice ex_create [ELeave Success 10 [4; 2]] = Some (Done u) /\
  call_status ex_world free alice ex_create [ELeave Success 10 [4; 2]] = Some Success.
Proof. eexists. split; [vm_compute; reflexivity|reflexivity]. Qed.

Lemma ex_lives : (forall i, w_env ex_world i = true) /\ w_dbg ex_world = false /\
  (forall r, start ex_world free alice ex_buy = Begun (Stepped r) -> destroys_existing ex_world r ex_buy_run).
Proof. split_and!; auto. intros r E. vm_compute in E. injection E as <-. vm_compute. auto 10. Qed.

(** ** A refused lock, and logs *)
Lemma ex_refused : execute ex_world (true, false, true) alice ex_buy [] = Some Wounded.
Proof. vm_compute. reflexivity. Qed.
