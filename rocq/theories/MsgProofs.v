From Coq Require Import NArith List Bool Lia ZifyBool ZifyNat ZifyN.
From stdpp Require Import base decidable list.
From Verif Require Import Base CodecModel CodecSpec CodecProofs TxModel MsgModel.
Import ListNotations.
Open Scope N_scope.

Lemma wire_of_lawful {A} (c : codec A) : lawful c -> wire_correct c.
Proof.
  intros L. unfold wire_correct.
  assert (E : forall a, encoding c a = enc c a) by (intros; apply make_buffer_ok).
  repeat split.
  - intros a t D. rewrite E. now apply l_rt.
  - intros a. rewrite E. apply serialized_size_ok.
  - rewrite !E in H1. eapply lawful_prefix_free in H1; eauto. tauto.
  - rewrite !E in H1. eapply lawful_prefix_free in H1; eauto. tauto.
  - intros a b Da Db H. rewrite !E in H. eapply lawful_inj; eauto.
  - intros a p q D H Hq. rewrite E in H.
    unfold from_buffer. destruct (lawful_truncated c a p q L D H Hq) as [->|(x & s & -> & V)].
    + now left.
    + right. rewrite V. eauto.
  - now apply l_fuel.
  - intros a [r v] H V. simpl in V. subst. apply l_local in H as [H _]; auto.
Qed.

Create HintDb codec.
#[export] Hint Resolve lawful_uint lawful_array lawful_bool lawful_buffer lawful_option
  lawful_pair lawful_vec lawful_oset lawful_uset lawful_map lawful_unit
  consuming_bool consuming_buffer consuming_option consuming_pair consuming_vec
  consuming_map consuming_iso : codec.

Lemma consuming_u32 : consuming c_u32. Proof. apply consuming_uint; lia. Qed.
Lemma consuming_sig : consuming c_sig. Proof. apply consuming_array; lia. Qed.
Lemma consuming_pubkey : consuming c_pubkey. Proof. apply consuming_array; lia. Qed.
Lemma lawful_pubkey : lawful c_pubkey. Proof. apply lawful_array. Qed.
#[export] Hint Resolve lawful_u64 lawful_u8 lawful_u32 lawful_hash lawful_sig lawful_pubkey
  consuming_u64 consuming_u8 consuming_u32 consuming_hash consuming_sig consuming_pubkey : codec.

(** Transactions. *)
Lemma lawful_out_point : lawful c_out_point.
Proof. apply lawful_iso; [now intros []|auto with codec]. Qed.
Lemma lawful_output : lawful c_output.
Proof. apply lawful_iso; [now intros []|auto with codec]. Qed.
#[export] Hint Resolve lawful_out_point lawful_output : codec.
Lemma lawful_input : lawful c_input.
Proof. apply lawful_iso; [now intros []|auto with codec]. Qed.
Lemma lawful_witness : lawful c_witness.
Proof. apply lawful_vec; auto with codec. Qed.
#[export] Hint Resolve lawful_input lawful_witness : codec.
Lemma lawful_full_tx : lawful c_full_tx.
Proof. apply lawful_iso; [now intros []|auto with codec]. Qed.
Lemma lawful_compact_tx : lawful c_compact_tx.
Proof. apply lawful_iso; [now intros []|auto with codec]. Qed.
#[export] Hint Resolve lawful_full_tx lawful_compact_tx : codec.
Lemma lawful_block : lawful c_block.
Proof. apply lawful_iso; [now intros []|auto with codec]. Qed.
#[export] Hint Resolve lawful_block : codec.
Lemma lawful_addr : lawful c_addr. Proof. apply lawful_array. Qed.
Lemma lawful_b32 : lawful c_b32. Proof. apply lawful_array. Qed.
Lemma consuming_addr : consuming c_addr. Proof. apply consuming_array; lia. Qed.
Lemma consuming_b32 : consuming c_b32. Proof. apply consuming_array; lia. Qed.
#[export] Hint Resolve lawful_addr lawful_b32 consuming_addr consuming_b32 : codec.

Ltac lawful_msg :=
  lazymatch goal with
  | |- lawful (c_variant _) =>
      apply lawful_variant;
        [repeat match goal with |- all_lawful _ => constructor end; lawful_msg
        |cbn [v_size]; lia]
  | |- lawful (c_pair _ _) => apply lawful_pair; lawful_msg
  | |- lawful (c_vec _) => apply lawful_vec; lawful_msg
  | |- lawful (c_option _) => apply lawful_option; lawful_msg
  | |- lawful (c_uset _) => apply lawful_uset; [lawful_msg|auto 10 with codec]
  | |- lawful (c_map _ _) =>
      apply lawful_map; [lawful_msg|lawful_msg|auto 10 with codec]
  | |- lawful _ => first
      [ solve [auto 3 with codec]
      | match goal with |- lawful ?c => unfold c; lawful_msg
                      | |- lawful (?c _) => unfold c; lawful_msg end ]
  end.

Lemma lawful_code_key : lawful c_code_key.
Proof.
  assert (L : lawful (c_addr ** c_u8)) by lawful_msg.
  assert (D : forall s, dec c_code_key s
     = bind (dec (c_addr ** c_u8) s) (fun p s' => Ok (fst p) s')).
  { intros s. cbn [dec c_pair c_code_key]. destruct (dec c_addr s) as [a s1| |]; cbn [bind]; [|reflexivity|reflexivity].
    destruct (dec c_u8 s1); reflexivity. }
  split.
  - intros b a s H. rewrite D in H. apply bind_ok in H as (p & s1 & H1 & H2).
    inversion H2; subst. eapply l_sticky; eauto.
  - intros b a r H. rewrite D in H. apply bind_ok in H as (p & s1 & H1 & H2).
    inversion H2; subst. apply l_local in H1 as [E H1]; [|assumption]. split; [exact E|].
    intros q. rewrite D, H1. reflexivity.
  - intros a q Da. rewrite D.
    change (enc c_code_key a) with (enc (c_addr ** c_u8) (a, 0)).
    rewrite (l_rt _ L); [reflexivity|]. split; [exact Da|reflexivity].
  - intros s. rewrite D. destruct (dec (c_addr ** c_u8) s) eqn:E; simpl; try discriminate.
    eapply l_fuel in E; [destruct E|exact L].
Qed.
#[export] Hint Resolve lawful_code_key : codec.

(** The coordinator state written with raw payloads is byte for byte the
    encoding of the state that the controller reads. *)
Lemma raw_entries {A} (c : codec A) (l : list (N * A)) :
  concat (concat (map (fun x => wr c_hash (fst x) ++ [snd x])
                   (map (fun x => (fst x, enc c (snd x))) l)))
  = concat (concat (map (fun x => wr c_hash (fst x) ++ wr c (snd x)) l)).
Proof.
  induction l as [|[h a] l IH]; [reflexivity|].
  cbn [map concat fst snd]. rewrite !concat_app, IH. cbn [concat].
  rewrite app_nil_r. reflexivity.
Qed.

Lemma raw_state_ok p cm d :
  concat (wr_raw_state (map (fun x => (fst x, enc c_prepare_tx (snd x))) p)
            (map (fun x => (fst x, enc c_commit_tx (snd x))) cm) d)
  = enc c_coord_state (p, cm, d).
Proof.
  unfold wr_raw_state. rewrite !concat_app, !raw_entries. unfold len. rewrite !map_length.
  unfold c_coord_state, enc. cbn [wr c_pair c_map fst snd].
  rewrite !concat_app, !app_assoc. reflexivity.
Qed.
