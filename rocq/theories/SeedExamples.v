(** Concrete seeds. *)
From Coq Require Import NArith ZArith Ascii String Lia.
From stdpp Require Import base decidable option list gmap sets.
From Verif Require Import Base CodecModel TxModel TxSpec TxExamples ValidationModel SentinelSpec WalletModel
  HexModel ConfigModel ConfigSpec ConfigExamples SeedModel SeedSpec SeedProofs.
Open Scope N_scope.

Notation opts := (options (D := unit)).

(** Two-phase options with given shards, seeds and number of load generators; everything
    else as small as possible. *)
Definition ex_opts (ranges : list (N * N)) (from to gens : N) : opts :=
  Options true (SentinelOpts 0 [] [] [] []) (LockingOpts [] [] [])
    (ShardOpts [] [] [] ranges 0 from to (Some (repeat 1 32)) 5)
    (AtomizerOpts [] [] [] 0 0) (ArchiverOpts [] [] []) (WatchtowerOpts [] [] [] 0 0)
    (CoordinatorOpts [] [] [] 0) (RaftOpts 0 0 0 0 0 0) (LoadgenOpts 0 0 tt tt false 0 0 0 gens).

(** A stand-in hash: a checksum of 61 bits, moved to the front. *)
Definition ex_sha (b : bytes) : hash :=
  fold_left (fun h x => (h * 257 + x + 1) mod 2 ^ 61) b 0 * 2 ^ 195.
Lemma ex_sha_fits : sha_fits ex_sha.
Proof.
  intros b. unfold ex_sha. cut (fold_left (fun h x => (h * 257 + x + 1) mod 2 ^ 61) b 0 < 2 ^ 61).
  { intros H. change (2 ^ 256) with (2 ^ 61 * 2 ^ 195). apply N.mul_lt_mono_pos_r; [done|exact H]. }
  cut (forall h, h < 2 ^ 61 -> fold_left (fun h x => (h * 257 + x + 1) mod 2 ^ 61) b h < 2 ^ 61).
  { intros H. by apply H. }
  induction b as [|x b IH]; intros h H; [exact H|]. cbn [fold_left]. apply IH. by apply N.mod_lt.
Qed.

Definition ex_pub (sk : N) : N := (sk + 1) mod 2 ^ 256.
Definition ex_sk : N := be_value (repeat 1 32).
Notation ex_wallet o i := (generator_wallet ex_sha ex_pub o i).
Notation ex_hashes o s := (seeder_hashes ex_sha ex_pub o ex_sk s).

(** Ten seeds, two generators, two shards. *)
Definition ex_even : opts := ex_opts [(0, 127); (128, 255)] 0 10 2.

Lemma even_case :
  match ex_wallet ex_even 0, ex_wallet ex_even 1 with
  | Val (Some w), Val (Some v) => w_from w = 0 /\ w_to w = 4 /\ w_from v = 5 /\ w_to v = 9
  | _, _ => False
  end /\
  (length (ex_hashes ex_even 0) + length (ex_hashes ex_even 1) = 10)%nat /\
  even_range 2 0 = (0, 127) /\ even_range 2 1 = (128, 255) /\ even_range 3 2 = (170, 255).
Proof. vm_compute; repeat split. Qed.

Lemma loads_case : match shard_seeder ex_sha ex_pub ex_even with
  | Val fs => shard_preseed ex_even fs 0 = Some (ex_hashes ex_even 0) /\
              shard_preseed ex_even fs 1 = Some (ex_hashes ex_even 1)
  | _ => False end.
Proof. vm_compute; repeat split. Qed.

Definition memb (h : hash) (l : list hash) : bool := existsb (N.eqb h) l.
Lemma memb_false h l : memb h l = false -> h ∉ l.
Proof.
  intros H I. apply not_true_iff_false in H. apply H, existsb_exists. exists h.
  split; [by apply elem_of_list_In|apply N.eqb_refl].
Qed.
Lemma memb_true h l : memb h l = true -> h ∈ l.
Proof. unfold memb. rewrite existsb_exists. intros (x & X & E). apply N.eqb_eq in E. subst. by apply elem_of_list_In. Qed.

(** Seeds that do not begin with 0: a generator's coin that was written nowhere. *)
Definition ex_from5 : opts := ex_opts [(0, 127); (128, 255)] 5 15 2.
Lemma from5_case : exists w, ex_wallet ex_from5 1 = Val (Some w) /\ holds_seed w 11 /\
  input_hash ex_sha (seeded_input ex_sha w 11) ∉ ex_hashes ex_from5 0 /\
  input_hash ex_sha (seeded_input ex_sha w 11) ∉ ex_hashes ex_from5 1.
Proof.
  destruct (ex_wallet ex_from5 1) as [[w|]| | | |] eqn:E; try (exfalso; revert E; vm_compute; discriminate).
  exists w. split; [done|].
  assert (Q : match ex_wallet ex_from5 1 with
    | Val (Some w) => w_from w = 10 /\ w_to w = 14 /\
       memb (input_hash ex_sha (seeded_input ex_sha w 11)) (ex_hashes ex_from5 0) = false /\
       memb (input_hash ex_sha (seeded_input ex_sha w 11)) (ex_hashes ex_from5 1) = false
    | _ => False end) by (vm_compute; repeat split).
  rewrite E in Q. destruct Q as (A & B & Q1 & Q2). split_and!.
  - unfold holds_seed. rewrite A, B. lia.
  - exact (memb_false _ _ Q1).
  - exact (memb_false _ _ Q2).
Qed.

(** Ranges that are not even shares: a coin written for the shard that does not answer
    for it. *)
Definition ex_uneven : opts := ex_opts [(0, 9); (10, 255)] 0 4 2.
Lemma uneven_case : exists h, h ∈ ex_hashes ex_uneven 0 /\
  in_range (0, 9) h = false /\ in_range (10, 255) h = true /\ h ∉ ex_hashes ex_uneven 1.
Proof.
  assert (Q : existsb (fun h => negb (in_range (0, 9) h) && in_range (10, 255) h && negb (memb h (ex_hashes ex_uneven 1)))
    (ex_hashes ex_uneven 0) = true) by (vm_compute; reflexivity).
  revert Q. generalize (ex_hashes ex_uneven 0) (ex_hashes ex_uneven 1). intros l0 l1 Q.
  apply existsb_exists in Q as (h & I & Q). exists h. rewrite !andb_true_iff, !negb_true_iff in Q.
  destruct Q as ((A & B) & C). split_and!; [exact (proj2 (elem_of_list_In _ _) I)|exact A|exact B|exact (memb_false _ _ C)].
Qed.

(** Two shards with one range: the second finds no file. *)
Definition ex_same : opts := ex_opts [(0, 255); (0, 255)] 0 10 2.
Lemma same_case : match shard_seeder ex_sha ex_pub ex_same with
  | Val fs => (length fs = 1)%nat /\ shard_preseed ex_same fs 1 = Some [] /\
      (length (ex_hashes ex_same 0) = 10)%nat
  | _ => False end.
Proof. vm_compute; repeat split. Qed.

(** As many generators as seeds: none can start. More: the first believes it has
    2^64 - 1 coins. *)
Lemma few_case : ex_wallet (ex_opts [(0, 255)] 0 2 2) 0 = Val None /\
  match ex_wallet (ex_opts [(0, 255)] 0 2 3) 0 with
  | Val (Some w) => w_from w = 0 /\ w_to w = 18446744073709551615
  | _ => False end /\
  ex_wallet (ex_opts [(0, 255)] 0 2 2) 2 = Assertion.
Proof. vm_compute; repeat split. Qed.

(** The last seed of each generator's share belongs to nobody. *)
Lemma unused_case : forall i w, ex_wallet ex_even i = Val (Some w) -> ~ holds_seed w 4 /\ ~ holds_seed w 9.
Proof.
  intros i w H. destruct (generator_val ex_sha ex_pub ex_even i w) as (sk & _ & Hi & A & _); try done.
  rewrite !A. clear. unfold part_start, part_size. cbn [ex_even ex_opts o_seed_from o_seed_to o_shards o_loadgen o_loadgens].
  change ((10 - 0) / 2) with 5. lia.
Qed.
