(** Concrete EVM transactions, and the cases behind the refuted properties. *)
From Coq Require Import Arith NArith List Lia.
From stdpp Require Import base list.
From Verif Require Import Base CodecModel CodecSpec CodecProofs RlpModel RlpSpec RlpProofs
  EvmMathModel EvmMathSpec EvmMathProofs EvmTxModel EvmTxSpec EvmTxProofs.
Import ListNotations.
Open Scope N_scope.

Lemma is_byte_dec b : forallb (fun x => x <? 256) b = true -> Forall is_byte b.
Proof.
  intros H. rewrite forallb_forall in H. apply Forall_forall. intros x X.
  apply elem_of_list_In, H in X. by apply N.ltb_lt.
Qed.

Lemma word_zero : word zero_word. Proof. exact EvmMathProofs.zero_word. Qed.

Definition ex_addr : bytes := 0 :: repeat 7 19.

Lemma ex_addr_ok : address ex_addr.
Proof. split; [done|]. apply is_byte_dec. reflexivity. Qed.

(** One transaction of each type. *)
Definition ex_legacy : evm_tx :=
  EvmTx Legacy (Some ex_addr) (u256 1000) (u256 0) (u256 5) (u256 21000) zero_word zero_word [] []
    (EvmSig (u256 123456789) (u256 987654321) (u256 37)).
Definition ex_create : evm_tx :=
  EvmTx Legacy None (u256 0) (u256 3) (u256 5) (u256 21000) zero_word zero_word [0; 200; 3] []
    (EvmSig (u256 1) (u256 2) (u256 28)).
Definition ex_dynamic : evm_tx :=
  EvmTx DynamicFee (Some ex_addr) (u256 1) (u256 200) zero_word (u256 21000) (u256 2) (u256 300) [1]
    [Access ex_addr [u256 1; u256 2]; Access ex_addr []]
    (EvmSig (u256 1) (u256 2) (u256 1)).

Lemma ex_ok t : t = ex_legacy \/ t = ex_create \/ t = ex_dynamic ->
  well_formed t /\ only_own_fields t /\ legacy_chain 1 t /\ fits 1 t.
Proof.
  assert (F : forall n, Forall is_byte (u256 n)) by (intros; apply be_bytes_is_byte).
  pose proof ex_addr_ok. pose proof word_zero. pose proof u256_word.
  intros [-> | [-> | ->]]; (split; [|split; [|split]]).
  all: match goal with
       | |- well_formed _ => idtac
       | |- only_own_fields _ => repeat split; reflexivity
       | |- fits _ _ => split; apply N.leb_le; vm_compute; reflexivity
       | |- legacy_chain _ ex_legacy => intros _; right; vm_compute; reflexivity
       | |- legacy_chain _ ex_create => intros _; left; vm_compute; reflexivity
       | |- legacy_chain _ _ => intros T; discriminate T
       end.
  all: unfold well_formed, access_ok;
    cbn [t_type t_to t_value t_nonce t_gas_price t_gas_limit t_gas_tip_cap t_gas_fee_cap t_input t_access t_sig
         s_r s_s s_v ex_dynamic ex_legacy ex_create];
    repeat match goal with |- _ /\ _ => split end; auto; try (apply is_byte_dec; reflexivity).
  repeat (apply Forall_cons_2 || apply Forall_nil_2); cbn [a_address a_keys]; (split; [done|]);
    repeat (apply Forall_cons_2 || apply Forall_nil_2); done.
Qed.

(** ** C51 *)

(** The same dynamic-fee transaction with 2^64 + 1 in the place of the chain ID 1. *)
Definition wrong_chain_rlp : rlp :=
  match tx_rlp 1 false ex_dynamic with
  | RArr (_ :: r) => RArr (make_rlp_value (u256 (2 ^ 64 + 1)) true :: r)
  | v => v
  end.

Lemma wrong_chain_case :
  tx_decode 1 (2 :: rlp_bytes wrong_chain_rlp) = DOk ex_dynamic /\
  encodes ex_dynamic (Number (2 ^ 64 + 1) :: tail (unsigned_fields 1 ex_dynamic) ++ signature_fields ex_dynamic)
    (2 :: rlp_bytes wrong_chain_rlp).
Proof.
  split; [vm_compute; reflexivity|].
  destruct (ex_ok ex_dynamic) as (W & _ & _ & F); [auto|].
  pose proof (all_bytes_tx 1 false ex_dynamic W) as A.
  assert (A' : all_bytes wrong_chain_rlp).
  { unfold wrong_chain_rlp, tx_rlp in *. cbn [t_type ex_dynamic typed app] in *.
    destruct A as [_ A]. split; [|exact A]. apply all_bytes_value, be_bytes_is_byte. }
  assert (L : len (rlp_bytes wrong_chain_rlp) <= max_alloc) by (apply N.leb_le; vm_compute; reflexivity).
  pose proof (standard _ A' L) as R.
  destruct (encodes_ok 1 false ex_dynamic W F eq_refl) as (vs & e & _ & E & _).
  unfold encodes. unfold wrong_chain_rlp in *.
  destruct (tx_rlp 1 false ex_dynamic) as [?|[|v0 vs0]] eqn:T; [discriminate|discriminate|].
  eexists _, _. split; [reflexivity|]. split; [|exact R].
  constructor; [apply element_word; [apply u256_word|vm_compute; reflexivity]|].
  pose proof (encodes_elements 1 false ex_dynamic W F eq_refl) as EE.
  rewrite T in EE. by inversion EE.
Qed.

(** A string of 9 bytes where the list of a legacy transaction should be. *)
Lemma string_case : tx_decode 1 (rlp_bytes (RBuf [1;2;3;4;5;6;7;8;9])) = DThrow.
Proof. vm_compute. reflexivity. Qed.

(** A nonce of 33 bytes. *)
Lemma long_nonce_case : tx_decode 1 (rlp_bytes
  (RArr (RBuf (repeat 1 33) :: repeat (RBuf []) 8))) = DUndefined.
Proof. vm_compute. reflexivity. Qed.

Lemma empty_case c : tx_decode c [] = DUndefined.
Proof. reflexivity. Qed.

(** A legacy transaction whose unused tip cap is set. *)
Lemma unused_field_case : exists t t',
  well_formed t /\ legacy_chain 1 t /\ fits 1 t /\ tx_decode 1 (tx_encode 1 false t) = DOk t' /\ t' <> t.
Proof.
  exists (EvmTx Legacy (Some ex_addr) (u256 1000) (u256 0) (u256 5) (u256 21000) (u256 1) zero_word [] []
    (EvmSig (u256 123456789) (u256 987654321) (u256 37))), ex_legacy.
  destruct (ex_ok ex_legacy) as ((T & V & N & GP & GL & GT & GF & I & A & R & S & VV) & _ & L & F); [auto|].
  split; [|split; [|split; [|split]]].
  - unfold well_formed.
    cbn [t_type t_to t_value t_nonce t_gas_price t_gas_limit t_gas_tip_cap t_gas_fee_cap t_input t_access t_sig s_r s_s s_v].
    pose proof u256_word. pose proof word_zero. pose proof ex_addr_ok.
    repeat match goal with |- _ /\ _ => split end; auto.
  - exact L.
  - exact F.
  - vm_compute. reflexivity.
  - intros E. apply (f_equal t_gas_tip_cap) in E. vm_compute in E. discriminate E.
Qed.

(** Another [v] for the same signature: 37 and 2^64 + 37 (and 27, the [v] of a
    signature without chain ID, although the hash does contain it). *)
Definition with_v (t : evm_tx) (v : N) : evm_tx :=
  with_sig t (EvmSig (s_r (t_sig t)) (s_s (t_sig t)) (u256 v)).

Lemma malleable_case v : v = 2 ^ 64 + 37 \/ v = 27 ->
  let t := ex_legacy in let t' := with_v t v in
  t <> t' /\
  tx_decode 1 (tx_encode 1 false t) = DOk t /\ tx_decode 1 (tx_encode 1 false t') = DOk t' /\
  tx_encode 1 false t <> tx_encode 1 false t' /\
  forall keccak recover, check_signature keccak recover 1 t = check_signature keccak recover 1 t'.
Proof.
  intros H t t'.
  assert (E : tx_encode 1 false t <> tx_encode 1 false t').
  { intros E.
    destruct H as [-> | ->]; vm_compute in E; discriminate E. }
  split; [intros Q; apply E; by rewrite <- Q|].
  split; [vm_compute; reflexivity|].
  split; [destruct H as [-> | ->]; vm_compute; reflexivity|].
  split; [exact E|].
  intros keccak recover. unfold check_signature.
  assert (S : evm_to_sig (t_type t) 1 (t_sig t) = evm_to_sig (t_type t') 1 (t_sig t')).
  { destruct H as [-> | ->]; vm_compute; reflexivity. }
  rewrite <- S. reflexivity.
Qed.

(** ** C57 *)

Lemma v35_case : exists d, recoverable d /\ evm_to_sig Legacy 0 (sig_to_evm Legacy 0 d) <> Some d /\
  evm_to_sig Legacy 0 (sig_to_evm Legacy 0 d) <> None.
Proof.
  exists (repeat 1 64 ++ [0]). split; [|split].
  - split; [done|]. apply is_byte_dec. reflexivity.
  - vm_compute. intros E. discriminate E.
  - vm_compute. intros E. discriminate E.
Qed.

(** ** C46 *)

Lemma not_canonical_case : exists b v, from_buffer c_rlp b = Ok (Some v) (Dst [] true) /\
  dom c_rlp v /\ encoding c_rlp v <> b.
Proof.
  exists [129; 1], (RBuf [1]). split; [vm_compute; reflexivity|]. split.
  - split; [apply is_byte_dec; reflexivity|]. apply N.leb_le. vm_compute. reflexivity.
  - vm_compute. intros E. discriminate E.
Qed.

(** The inner string says that it has two bytes, and has one. *)
Lemma nested_short_case : from_buffer c_rlp [194; 130; 1] = Ok (Some (RArr [RBuf [0; 0]; RBuf [1]])) (Dst [] true).
Proof. vm_compute. reflexivity. Qed.

Lemma throws_case : from_buffer c_rlp (191 :: repeat 255 8) = Throw.
Proof. vm_compute. reflexivity. Qed.

Lemma rlp_example :
  dom c_rlp (RArr [RBuf (repeat 7 60); RArr [RBuf []; RBuf [5]; RBuf [200]]]) /\
  encoding c_rlp (RArr [RBuf [99; 97; 116]; RArr [RBuf []; RBuf [5]; RBuf [200]]]) =
    [201; 131; 99; 97; 116; 196; 128; 5; 129; 200].
Proof.
  split; [|vm_compute; reflexivity]. split.
  - cbn [all_bytes fold_right]. repeat split; apply is_byte_dec; reflexivity.
  - apply N.leb_le. vm_compute. reflexivity.
Qed.

Lemma undefined_cases : (exists b, b <> [] /\ tx_decode 1 b = DUndefined) /\ tx_decode 1 [] = DUndefined.
Proof.
  split; [|done]. eexists. split; [|apply long_nonce_case]. vm_compute. intros E. discriminate E.
Qed.

Lemma sig_example : recoverable (repeat 1 64 ++ [1]) /\
  v_unambiguous Legacy 52188 (repeat 1 64 ++ [1]) /\
  number (s_v (sig_to_evm Legacy 52188 (repeat 1 64 ++ [1]))) = 104412.
Proof.
  split; [split; [done|apply is_byte_dec; reflexivity]|]. split; [|vm_compute; reflexivity].
  intros _. split; vm_compute; reflexivity.
Qed.

Lemma signer_example : exists sign recover addr, recovers sign recover addr /\
  v_unambiguous Legacy 52188 (sign [] []).
Proof.
  exists (fun _ _ => repeat 1 64 ++ [1]), (fun _ _ => Some ex_addr), (fun _ => ex_addr).
  split; [|apply sig_example]. intros key h. split; [apply sig_example|done].
Qed.
