(** C79: pre-seeded money. [seed_coin], [even_range], [holds_seed], [part_start] and
    [part_size] are in SeedSpec.v; a hash has 256 bits by [sha_fits] of SentinelSpec.v;
    [collides] says that two different ones of the texts hashed for the seeds have the same hash. *)
From Coq Require Import NArith ZArith Ascii String.
From stdpp Require Import base option list.
From Verif Require Import Base CodecModel TxModel TxSpec ValidationModel SentinelSpec WalletModel
  HexModel ConfigModel ConfigSpec SeedModel SeedSpec SeedProofs SeedExamples CollideSpec CollideProofs.
Open Scope N_scope.

(** C79: the load generators' wallets start with different seeds, all from the configured
    range, if there are as many seeds as generators. *)
Theorem C79_generators_apart {D} sha pub_of (o : options (D := D)) i j w v k :
  o_seed_from (o_shards o) < o_seed_to (o_shards o) -> o_seed_to (o_shards o) < two64 ->
  o_loadgens (o_loadgen o) <= o_seed_to (o_shards o) - o_seed_from (o_shards o) ->
  generator_wallet sha pub_of o i = Val (Some w) -> generator_wallet sha pub_of o j = Val (Some v) ->
  holds_seed w k -> o_seed_from (o_shards o) <= k < o_seed_to (o_shards o) /\ (i <> j -> ~ holds_seed v k).
Proof. exact (apart sha pub_of o i j w v k). Qed.
Print Assumptions C79_generators_apart.

(** C79: each gets its share of the range but for the last seed of the share; with a share
    of one seed it cannot start. *)
Theorem C79_generator_share {D} sha pub_of (o : options (D := D)) i sk :
  o_seed_from (o_shards o) < o_seed_to (o_shards o) -> o_seed_to (o_shards o) < two64 ->
  seed_key o = Some sk -> i < o_loadgens (o_loadgen o) ->
  let q := part_size (o_seed_from (o_shards o)) (o_seed_to (o_shards o)) (o_loadgens (o_loadgen o)) in
  let s := part_start (o_seed_from (o_shards o)) (o_seed_to (o_shards o)) (o_loadgens (o_loadgen o)) i in
  q <> 0 ->
  if q =? 1 then generator_wallet sha pub_of o i = Val None
  else exists w, generator_wallet sha pub_of o i = Val (Some w) /\
    (forall k, holds_seed w k <-> s <= k < s + q - 1) /\
    w_seed_value w = seed_amount o /\ w_seed_commit w = commit_of sha (pub_of sk).
Proof. exact (generator_seeds sha pub_of o i sk). Qed.
Print Assumptions C79_generator_share.

(** C79, in part (seeds that begin with 0): every coin a generator's wallet may spend was
    written for exactly one shard, under the ID with which the wallet spends it. *)
Theorem C79_coins_exist_partial {D} sha pub_of (o : options (D := D)) i w k : sha_fits sha ->
  o_seed_from (o_shards o) = 0 -> 0 < o_seed_to (o_shards o) < two64 ->
  o_loadgens (o_loadgen o) <= o_seed_to (o_shards o) ->
  0 < seed_shards o <= 256 ->
  generator_wallet sha pub_of o i = Val (Some w) -> holds_seed w k ->
  exists sk s, seed_key o = Some sk /\ s < seed_shards o /\
    input_hash sha (seeded_input sha w k) ∈ seeder_hashes sha pub_of o sk s /\
    forall s', s' < seed_shards o ->
      input_hash sha (seeded_input sha w k) ∈ seeder_hashes sha pub_of o sk s' -> s' = s.
Proof. exact (coins_exist sha pub_of o i w k). Qed.
Print Assumptions C79_coins_exist_partial.

(** C79, in part (shards with even ranges): what is written for a shard is what the shard
    answers for. *)
Theorem C79_shard_gets_its_coins_partial {D} sha pub_of (o : options (D := D)) sk s r h :
  seed_shards o <= 256 -> s < seed_shards o ->
  o_shard_ranges (o_shards o) !! N.to_nat s = Some r -> r = even_range (seed_shards o) s ->
  h ∈ seeder_hashes sha pub_of o sk s <->
  in_range r h = true /\
  exists k, k < seed_count o /\
    h = input_hash sha (seed_coin sha (commit_of sha (pub_of sk)) (seed_amount o) k).
Proof. exact (file_exact sha pub_of o sk s r h). Qed.
Print Assumptions C79_shard_gets_its_coins_partial.

(** C79: a locking shard starts with what was written for it. *)
Theorem C79_shard_loads {D} sha pub_of (o : options (D := D)) files sk s : sha_fits sha ->
  o_twophase o = true -> o_seed_from (o_shards o) <> o_seed_to (o_shards o) -> seed_key o = Some sk ->
  shard_seeder sha pub_of o = Val files -> s < seed_shards o ->
  shard_preseed o files s = Some (seeder_hashes sha pub_of o sk s) \/
  collides sha (seed_texts sha (commit_of sha (pub_of sk)) (seed_amount o) (N.to_nat (seed_count o))).
Proof. exact (shard_gets sha pub_of o files sk s). Qed.
Print Assumptions C79_shard_loads.

(** C79, refuted for seeds that do not begin with 0: a wallet holds coins that were written
    for no shard. *)
Theorem C79_first_seed_refuted : exists sha pub_of (o : options (D := unit)) i w k sk,
  sha_fits sha /\ seed_key o = Some sk /\ seed_shards o = 2 /\
  generator_wallet sha pub_of o i = Val (Some w) /\ holds_seed w k /\
  input_hash sha (seeded_input sha w k) ∉ seeder_hashes sha pub_of o sk 0 /\
  input_hash sha (seeded_input sha w k) ∉ seeder_hashes sha pub_of o sk 1.
Proof.
  destruct from5_case as (w & C). exists ex_sha, ex_pub, ex_from5, 1, w, 11, ex_sk.
  split; [exact ex_sha_fits|]. split; [reflexivity|]. split; [reflexivity|exact C].
Qed.
Print Assumptions C79_first_seed_refuted.

(** C79, refuted for shards whose ranges are not even: a coin is written for a shard that
    does not answer for it, and not for the one that does. *)
Theorem C79_uneven_refuted : exists sha pub_of (o : options (D := unit)) sk h,
  o_shard_ranges (o_shards o) = [(0, 9); (10, 255)] /\
  h ∈ seeder_hashes sha pub_of o sk 0 /\
  in_range (0, 9) h = false /\ in_range (10, 255) h = true /\ h ∉ seeder_hashes sha pub_of o sk 1.
Proof.
  destruct uneven_case as (h & C). exists ex_sha, ex_pub, ex_uneven, ex_sk, h. split; [reflexivity|exact C].
Qed.
Print Assumptions C79_uneven_refuted.

(** C79, refuted for two shards with the same range: one starts with nothing. *)
Theorem C79_same_range_refuted :
  match shard_seeder ex_sha ex_pub ex_same with
  | Val fs => (length fs = 1)%nat /\ shard_preseed ex_same fs 1 = Some [] /\
      (length (seeder_hashes ex_sha ex_pub ex_same ex_sk 0) = 10)%nat
  | _ => False end.
Proof. exact same_case. Qed.
Print Assumptions C79_same_range_refuted.

(** C79, refuted for few seeds: with as many generators as seeds none starts, with more
    the first believes it has 2^64 - 1 coins. *)
Theorem C79_few_seeds_refuted :
  generator_wallet ex_sha ex_pub (ex_opts [(0, 255)] 0 2 2) 0 = Val None /\
  match generator_wallet ex_sha ex_pub (ex_opts [(0, 255)] 0 2 3) 0 with
  | Val (Some w) => w_from w = 0 /\ w_to w = 18446744073709551615
  | _ => False end /\
  generator_wallet ex_sha ex_pub (ex_opts [(0, 255)] 0 2 2) 2 = Assertion.
Proof. exact few_case. Qed.
Print Assumptions C79_few_seeds_refuted.

(** C79, refuted: not every seed is somebody's. *)
Theorem C79_unused_refuted : forall i w, generator_wallet ex_sha ex_pub ex_even i = Val (Some w) ->
  ~ holds_seed w 4 /\ ~ holds_seed w 9.
Proof. exact unused_case. Qed.
Print Assumptions C79_unused_refuted.

(** Ten seeds, two generators and two shards with even ranges. *)
Example C79_case :
  match generator_wallet ex_sha ex_pub ex_even 0, generator_wallet ex_sha ex_pub ex_even 1 with
  | Val (Some w), Val (Some v) => w_from w = 0 /\ w_to w = 4 /\ w_from v = 5 /\ w_to v = 9
  | _, _ => False
  end /\
  (length (seeder_hashes ex_sha ex_pub ex_even ex_sk 0) + length (seeder_hashes ex_sha ex_pub ex_even ex_sk 1) = 10)%nat /\
  even_range 2 0 = (0, 127) /\ even_range 2 1 = (128, 255) /\ even_range 3 2 = (170, 255).
Proof. exact even_case. Qed.
Example C79_loads_case : sha_fits ex_sha /\ match shard_seeder ex_sha ex_pub ex_even with
  | Val fs => shard_preseed ex_even fs 0 = Some (seeder_hashes ex_sha ex_pub ex_even ex_sk 0) /\
              shard_preseed ex_even fs 1 = Some (seeder_hashes ex_sha ex_pub ex_even ex_sk 1)
  | _ => False end.
Proof. exact (conj ex_sha_fits loads_case). Qed.
