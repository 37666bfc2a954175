(** Proofs about pre-seeded money. *)
From Coq Require Import NArith ZArith Ascii String Lia.
From stdpp Require Import base decidable option list gmap.
From Verif Require Import Base CodecModel CodecProofs TxModel TxSpec TxProofs ValidationModel SentinelSpec WalletModel
  HexModel ConfigModel ConfigSpec ConfigText SeedModel SeedSpec.
Open Scope N_scope.

Lemma wrap_small x : x < two64 -> wrap64 x = x.
Proof. apply N.mod_small. Qed.
Lemma add64_small x y : x + y < two64 -> add64 x y = x + y.
Proof. apply wrap_small. Qed.
Lemma mul64_small x y : x * y < two64 -> mul64 x y = x * y.
Proof. apply wrap_small. Qed.
Lemma sub64_small x y : y <= x -> x < two64 -> sub64 x y = x - y.
Proof.
  intros L S. unfold sub64, wrap64. replace (x + (two64 - y)) with ((x - y) + 1 * two64) by lia.
  rewrite N.mod_add by done. apply N.mod_small. lia.
Qed.

Lemma neqb_lt a b : a < b -> (a =? b) = false.
Proof. intros. apply N.eqb_neq. lia. Qed.

(** * The division of the seeds *)
Section Parts.
Context {D : Type} (o : options (D := D)).
Notation from := (o_seed_from (o_shards o)).
Notation to := (o_seed_to (o_shards o)).
Notation n := (o_loadgens (o_loadgen o)).
Context (L : from <= to) (S : to < two64).

Lemma part_fits i : i < n -> part_start from to n i + part_size from to n <= to.
Proof.
  intros Hi. unfold part_start, part_size.
  assert ((i + 1) * ((to - from) / n) <= to - from); [|lia].
  transitivity (n * ((to - from) / n)); [apply N.mul_le_mono_r; lia|].
  apply N.mul_div_le. lia.
Qed.

Lemma range_is i : i < n -> part_size from to n <> 0 ->
  loadgen_seed_range o i =
  Val (part_start from to n i, part_start from to n i + part_size from to n - 1).
Proof.
  intros Hi Z. unfold loadgen_seed_range. rewrite (proj2 (N.ltb_lt _ _) Hi).
  pose proof (part_fits i Hi) as F. unfold part_start, part_size in *.
  rewrite (sub64_small to from) by done. set (q := (to - from) / n) in *.
  rewrite mul64_small by lia. rewrite add64_small by lia. rewrite add64_small by lia.
  by rewrite sub64_small by lia.
Qed.

Lemma range_val i a b : loadgen_seed_range o i = Val (a, b) -> part_size from to n <> 0 ->
  i < n /\ a = part_start from to n i /\ b = part_start from to n i + part_size from to n - 1.
Proof.
  intros H Z. destruct (N.lt_ge_cases i n) as [Hi|Hi].
  - rewrite (range_is i Hi Z) in H. injection H as <- <-. done.
  - unfold loadgen_seed_range in H. by rewrite (proj2 (N.ltb_ge _ _) Hi) in H.
Qed.

Lemma parts_disjoint i j k : i <> j ->
  part_start from to n i <= k < part_start from to n i + part_size from to n ->
  part_start from to n j <= k < part_start from to n j + part_size from to n -> False.
Proof.
  unfold part_start, part_size. intros Hij A B. set (q := (to - from) / n) in *.
  destruct (N.lt_total i j) as [X|[X|X]]; [|done|].
  - assert ((i + 1) * q <= j * q) by (apply N.mul_le_mono_r; lia). lia.
  - assert ((j + 1) * q <= i * q) by (apply N.mul_le_mono_r; lia). lia.
Qed.
End Parts.

Section Gen.
Context {D : Type} (sha : bytes -> hash) (pub_of : N -> N).
Implicit Types (o : options (D := D)).

(** Every generator gets its part, less the last seed. *)
Lemma generator_seeds o i sk : o_seed_from (o_shards o) < o_seed_to (o_shards o) ->
  o_seed_to (o_shards o) < two64 -> seed_key o = Some sk ->
  i < o_loadgens (o_loadgen o) ->
  let q := part_size (o_seed_from (o_shards o)) (o_seed_to (o_shards o)) (o_loadgens (o_loadgen o)) in
  let s := part_start (o_seed_from (o_shards o)) (o_seed_to (o_shards o)) (o_loadgens (o_loadgen o)) i in
  q <> 0 ->
  if q =? 1 then generator_wallet sha pub_of o i = Val None
  else exists w, generator_wallet sha pub_of o i = Val (Some w) /\
    (forall k, holds_seed w k <-> s <= k < s + q - 1) /\
    w_seed_value w = seed_amount o /\ w_seed_commit w = commit_of sha (pub_of sk).
Proof.
  intros L S K Hi q s Q. unfold generator_wallet.
  rewrite (neqb_lt _ _ L). rewrite (range_is o (N.lt_le_incl _ _ L) S i Hi Q).
  cbn [obind]. rewrite K. fold q s. unfold seed. destruct (q =? 1) eqn:E.
  - apply N.eqb_eq in E. rewrite E. rewrite (proj2 (N.leb_le (s + 1 - 1) s)) by lia. done.
  - apply N.eqb_neq in E. rewrite (proj2 (N.leb_gt (s + q - 1) s)) by lia.
    rewrite (Nat.eqb_refl 0 : Nat.eqb (size (w_keys w_empty)) 0 = true). cbn [negb].
    eexists. split; [reflexivity|]. by split_and!.
Qed.

Lemma generator_val o i w : o_seed_from (o_shards o) < o_seed_to (o_shards o) ->
  o_seed_to (o_shards o) < two64 ->
  let q := part_size (o_seed_from (o_shards o)) (o_seed_to (o_shards o)) (o_loadgens (o_loadgen o)) in
  let s := part_start (o_seed_from (o_shards o)) (o_seed_to (o_shards o)) (o_loadgens (o_loadgen o)) i in
  q <> 0 -> generator_wallet sha pub_of o i = Val (Some w) ->
  exists sk, seed_key o = Some sk /\ i < o_loadgens (o_loadgen o) /\
    (forall k, holds_seed w k <-> s <= k < s + q - 1) /\
    w_seed_value w = seed_amount o /\ w_seed_commit w = commit_of sha (pub_of sk).
Proof.
  intros L S q s Q H. pose proof H as H0. unfold generator_wallet in H.
  rewrite (neqb_lt _ _ L) in H.
  destruct (loadgen_seed_range o i) as [[a b]| | | |] eqn:R; try discriminate. cbn [obind] in H.
  destruct (seed_key o) as [sk|] eqn:K; [|discriminate]. exists sk. split; [done|].
  destruct (range_val o (N.lt_le_incl _ _ L) S i a b R Q) as (Hi & -> & ->). split; [done|].
  pose proof (generator_seeds o i sk L S K Hi Q) as G. fold q s in G.
  destruct (q =? 1).
  - rewrite H0 in G. discriminate.
  - destruct G as (w' & G & G1). rewrite H0 in G. injection G as <-. done.
Qed.

Lemma apart o i j w v k : o_seed_from (o_shards o) < o_seed_to (o_shards o) ->
  o_seed_to (o_shards o) < two64 ->
  o_loadgens (o_loadgen o) <= o_seed_to (o_shards o) - o_seed_from (o_shards o) ->
  generator_wallet sha pub_of o i = Val (Some w) -> generator_wallet sha pub_of o j = Val (Some v) ->
  holds_seed w k -> o_seed_from (o_shards o) <= k < o_seed_to (o_shards o) /\ (i <> j -> ~ holds_seed v k).
Proof.
  intros L S N Hw Hv Hk.
  set (f := o_seed_from (o_shards o)) in *. set (t := o_seed_to (o_shards o)) in *.
  set (n := o_loadgens (o_loadgen o)) in *.
  assert (Q : n <> 0 -> part_size f t n <> 0).
  { intros Z. unfold part_size. assert (1 <= (t - f) / n); [|lia]. apply N.div_le_lower_bound; lia. }
  assert (Z : n <> 0).
  { intros Z. unfold generator_wallet in Hw. fold f t in Hw.
    rewrite (neqb_lt _ _ L) in Hw. unfold loadgen_seed_range in Hw. fold n in Hw.
    rewrite Z in Hw. by destruct i. }
  destruct (generator_val o i w L S (Q Z) Hw) as (? & _ & Hi & A & _).
  destruct (generator_val o j v L S (Q Z) Hv) as (? & _ & Hj & B & _).
  fold f t n in A, B, Hi, Hj. apply A in Hk. pose proof (part_fits o (N.lt_le_incl _ _ L) S i Hi) as F. fold f t n in F.
  assert (f <= part_start f t n i) by (unfold part_start; apply N.le_add_r). split; [lia|]. intros Hij C. apply B in C.
  apply (parts_disjoint o (N.lt_le_incl _ _ L) S i j k Hij); fold f t n; lia.
Qed.

(** * What the seeder writes *)
Lemma range_even n i : n <= 256 -> i < n -> seeder_range n i = even_range n i.
Proof.
  intros N I. unfold seeder_range, even_range. cbn zeta.
  assert (E : (i =? n - 1) = (i + 1 =? n)).
  { apply eq_true_iff_eq. rewrite !N.eqb_eq. lia. }
  rewrite E. set (w := 256 / n).
  assert (1 <= w) by (apply N.div_le_lower_bound; lia).
  assert (n * w <= 256) by (apply N.mul_div_le; lia).
  assert ((i + 1) * w <= n * w) by (apply N.mul_le_mono_r; lia).
  rewrite mul64_small by (unfold two64; lia). f_equal.
  rewrite add64_small by (unfold two64; lia). rewrite mul64_small by (unfold two64; lia).
  by rewrite sub64_small by (unfold two64; lia).
Qed.

Lemma first_byte_small h : is_hash h -> first_byte h <= 255.
Proof.
  unfold is_hash, first_byte. intros H. apply N.lt_succ_r. apply N.div_lt_upper_bound; [done|].
  change (2 ^ 248 * N.succ 255) with (2 ^ 256). done.
Qed.

Lemma even_cover n h : 0 < n <= 256 -> is_hash h -> exists i, i < n /\ in_range (even_range n i) h = true.
Proof.
  intros N H. pose proof (first_byte_small h H) as F. set (w := 256 / n).
  assert (W : 1 <= w) by (apply N.div_le_lower_bound; lia).
  unfold in_range, even_range. fold w. set (x := first_byte h) in *.
  destruct (N.lt_ge_cases (x / w) (n - 1)) as [A|A].
  - exists (x / w). split; [lia|]. cbn [fst snd].
    rewrite (proj2 (N.eqb_neq (x / w + 1) n)) by lia.
    pose proof (N.mul_div_le x w). pose proof (N.mul_succ_div_gt x w).
    apply andb_true_iff. split; apply N.leb_le; lia.
  - exists (n - 1). split; [lia|]. cbn [fst snd]. replace (n - 1 + 1) with n by lia.
    rewrite N.eqb_refl. apply andb_true_iff. split; apply N.leb_le; [|done].
    pose proof (N.mul_div_le x w). assert ((n - 1) * w <= x / w * w) by (apply N.mul_le_mono_r; done). lia.
Qed.

Lemma even_once n i j h : n <= 256 -> i < n -> j < n ->
  in_range (even_range n i) h = true -> in_range (even_range n j) h = true -> i = j.
Proof.
  intros N. assert (Q : forall i j, i < j -> j < n ->
    in_range (even_range n i) h = true -> in_range (even_range n j) h = true -> False).
  { clear i j. intros i j L J. unfold in_range, even_range. set (w := 256 / n). cbn [fst snd].
    assert (W : 1 <= w) by (apply N.div_le_lower_bound; lia).
    rewrite (proj2 (N.eqb_neq (i + 1) n)) by lia. rewrite !andb_true_iff, !N.leb_le.
    assert ((i + 1) * w <= j * w) by (apply N.mul_le_mono_r; lia). lia. }
  intros I J A B. destruct (N.lt_total i j) as [X|[X|X]]; [|done|]; exfalso; eauto.
Qed.

Lemma seeded_hash_coin w k :
  seeded_hash sha w k = input_hash sha (seed_coin sha (w_seed_commit w) (w_seed_value w) k).
Proof.
  unfold seeded_hash, to_compact, seeded_tx. cbn [ctx_outputs tx_outputs uhs_outputs_from nth].
  by rewrite uhs_id_input.
Qed.
Lemma seeded_input_coin w k : seeded_input sha w k = seed_coin sha (w_seed_commit w) (w_seed_value w) k.
Proof. done. Qed.

Lemma seeder_elem o sk i h :
  h ∈ seeder_hashes sha pub_of o sk i <->
  in_range (seeder_range (seed_shards o) i) h = true /\
  exists k, k < seed_count o /\
    h = input_hash sha (seed_coin sha (commit_of sha (pub_of sk)) (seed_amount o) k).
Proof.
  unfold seeder_hashes. rewrite elem_of_list_In, filter_In, in_map_iff. split.
  - intros [(k & <- & Hk) R]. split; [done|]. apply in_seq in Hk. exists (N.of_nat k).
    split; [lia|]. apply seeded_hash_coin.
  - intros [R (k & Hk & ->)]. split; [|done]. exists (N.to_nat k). split.
    + rewrite N2Nat.id. apply seeded_hash_coin.
    + apply in_seq. lia.
Qed.

(** Every coin a generator holds was written for exactly one shard. *)
Lemma coins_exist o i w k : sha_fits sha ->
  o_seed_from (o_shards o) = 0 -> 0 < o_seed_to (o_shards o) < two64 ->
  o_loadgens (o_loadgen o) <= o_seed_to (o_shards o) ->
  0 < seed_shards o <= 256 ->
  generator_wallet sha pub_of o i = Val (Some w) -> holds_seed w k ->
  exists sk s, seed_key o = Some sk /\ s < seed_shards o /\
    input_hash sha (seeded_input sha w k) ∈ seeder_hashes sha pub_of o sk s /\
    forall s', s' < seed_shards o ->
      input_hash sha (seeded_input sha w k) ∈ seeder_hashes sha pub_of o sk s' -> s' = s.
Proof.
  intros HS F [T1 T2] G N Hw Hk.
  assert (L : o_seed_from (o_shards o) < o_seed_to (o_shards o)) by lia.
  assert (G' : o_loadgens (o_loadgen o) <= o_seed_to (o_shards o) - o_seed_from (o_shards o)) by lia.
  destruct (apart o i i w w k L T2 G' Hw Hw Hk) as [B _].
  assert (V : exists sk, seed_key o = Some sk /\ w_seed_value w = seed_amount o /\
    w_seed_commit w = commit_of sha (pub_of sk)).
  { unfold generator_wallet in Hw. rewrite (neqb_lt _ _ L) in Hw.
    destruct (loadgen_seed_range o i) as [[a b]| | | |]; try discriminate. cbn [obind] in Hw.
    destruct (seed_key o) as [sk|]; [|discriminate]. exists sk. split; [done|].
    unfold seed in Hw. destruct (b <=? a); [discriminate|].
    rewrite (Nat.eqb_refl 0 : Nat.eqb (size (w_keys w_empty)) 0 = true) in Hw. cbn [negb] in Hw.
    injection Hw as <-. done. }
  destruct V as (sk & K & V1 & V2). rewrite seeded_input_coin, V1, V2.
  set (h := input_hash sha _).
  assert (Hh : is_hash h) by apply HS.
  destruct (even_cover (seed_shards o) h N Hh) as (s & Hs & R).
  exists sk, s. split_and!; [done|done| |].
  - apply seeder_elem. rewrite range_even by lia. split; [done|]. exists k. split; [|done].
    unfold seed_count. rewrite sub64_small by lia. lia.
  - intros s' Hs' E. apply seeder_elem in E as [R' _]. rewrite range_even in R' by lia.
    apply (even_once (seed_shards o) s' s h); [lia|done|done|done|done].
Qed.

(** A shard whose range is its even share gets what it answers for. *)
Lemma file_exact o sk s r h : seed_shards o <= 256 -> s < seed_shards o ->
  o_shard_ranges (o_shards o) !! N.to_nat s = Some r -> r = even_range (seed_shards o) s ->
  h ∈ seeder_hashes sha pub_of o sk s <->
  in_range r h = true /\
  exists k, k < seed_count o /\
    h = input_hash sha (seed_coin sha (commit_of sha (pub_of sk)) (seed_amount o) k).
Proof. intros N S _ ->. rewrite seeder_elem, range_even by done. done. Qed.

(** Two seeds are two coins. *)
Lemma seed_typed c v k : k < two64 -> is_hash c -> v < two64 ->
  typed_full_tx (FullTx [Input (OutPoint 0 k) (Output 0 v)] [Output c v] []).
Proof.
  intros K C V. unfold is_hash in C. unfold typed_full_tx. cbn. change (256 ^ 8) with two64.
  assert (1 < two64) by done. assert (0 < two64) by done. assert (0 < 256 ^ 32) by done.
  repeat (split || constructor); try done.
Qed.

Lemma seeds_differ c v k k' : k < two64 -> k' < two64 -> is_hash c -> v < two64 -> sha_fits sha ->
  input_hash sha (seed_coin sha c v k) = input_hash sha (seed_coin sha c v k') -> k = k' \/ collision sha.
Proof.
  intros K K' C V HS E.
  pose proof (seed_typed c v k K C V) as T. pose proof (seed_typed c v k' K' C V) as T'.
  apply input_id_injective in E as [E|E]; [|by right| |].
  - unfold seed_coin in E. injection E as E. apply tx_id_commits in E as [[E _]|E]; [|by right|done|done].
    cbn [tx_inputs] in E. left. congruence.
  - apply (dom_input_of_output sha (FullTx [Input (OutPoint 0 k) (Output 0 v)] [Output c v] []) 0 (Output c v) T); [apply HS|done].
  - apply (dom_input_of_output sha (FullTx [Input (OutPoint 0 k') (Output 0 v)] [Output c v] []) 0 (Output c v) T'); [apply HS|done].
Qed.

Lemma all_differ c v n : N.of_nat n <= two64 -> is_hash c -> v < two64 -> sha_fits sha ->
  base.NoDup (map (fun k => input_hash sha (seed_coin sha c v (N.of_nat k))) (seq 0 n)) \/ collision sha.
Proof.
  intros N C V HS. induction n as [|n IH]; [left; constructor|].
  destruct IH as [IH|IH]; [lia| |by right]. rewrite seq_S, map_app. cbn [map Nat.add].
  set (f := fun k => input_hash sha (seed_coin sha c v (N.of_nat k))) in *.
  destruct (decide (f n ∈ map f (seq 0 n))) as [I|I].
  - right. apply elem_of_list_In, in_map_iff in I as (k & E & Hk). apply in_seq in Hk. unfold f in E.
    apply seeds_differ in E as [E|E]; try done; lia.
  - left. apply NoDup_app. split_and!; [done| |apply NoDup_singleton].
    intros x Hx Q. apply elem_of_list_singleton in Q. subst. done.
Qed.

Lemma preseed_inj m c i j : preseed_name m c i = preseed_name m c j -> i = j.
Proof.
  unfold preseed_name. intros H.
  do 2 apply app_inv_head in H. rewrite !(assoc (++)) in H. 
  repeat (apply app_inv_head in H). by apply dec_inj.
Qed.

Lemma find_name (g : N -> string) (c : N -> bytes) n s : (forall i j, g i = g j -> i = j) -> s < n ->
  List.find (fun f : string * bytes => bool_decide (f.1 = g s))
    (map (fun i : nat => (g (N.of_nat i), c (N.of_nat i))) (seq 0 (N.to_nat n))) = Some (g s, c s).
Proof.
  intros J L.
  assert (Q : forall m a, (N.to_nat s < a + m)%nat -> (a <= N.to_nat s)%nat ->
    List.find (fun f : string * bytes => bool_decide (f.1 = g s))
      (map (fun i : nat => (g (N.of_nat i), c (N.of_nat i))) (seq a m)) = Some (g s, c s)).
  { induction m as [|m IH]; intros a A B; [lia|]. cbn [seq map List.find fst].
    destruct (decide (g (N.of_nat a) = g s)) as [E|E].
    - rewrite bool_decide_true by done. apply J in E. by rewrite E.
    - rewrite bool_decide_false by done. apply IH; [lia|].
      destruct (decide (a = N.to_nat s)) as [->|]; [by rewrite N2Nat.id in E|lia]. }
  apply Q; lia.
Qed.

Lemma seeder_typed o sk s : sha_fits sha -> Forall (dom c_hash) (seeder_hashes sha pub_of o sk s).
Proof.
  intros HS. apply Forall_forall. intros h Hh. apply seeder_elem in Hh as (_ & k & _ & ->). apply HS.
Qed.

Lemma filter_count {A} (f : A -> bool) l : (length (List.filter f l) <= length l)%nat.
Proof. induction l as [|a l IH]; [done|]. cbn. destruct (f a); cbn; lia. Qed.

(** What a shard finds is what was written for it. *)
Lemma shard_loads o files sk s : sha_fits sha ->
  o_twophase o = true -> o_seed_from (o_shards o) <> o_seed_to (o_shards o) -> seed_key o = Some sk ->
  shard_seeder sha pub_of o = Val files -> s < seed_shards o ->
  shard_preseed o files s = Some (seeder_hashes sha pub_of o sk s) \/ collision sha.
Proof.
  intros HS M L K H S. unfold shard_seeder in H. rewrite K, M in H.
  rewrite (proj2 (N.eqb_neq (seed_shards o) 0)) in H by lia. injection H as <-.
  unfold shard_preseed. rewrite (proj2 (N.eqb_neq _ _)) by done.
  rewrite (find_name (preseed_name true (seed_count o))
    (fun i => enc (c_uset c_hash) (seeder_hashes sha pub_of o sk i))); [|by apply preseed_inj|done].
  cbn [snd].
  assert (B : seed_count o < two64) by (apply N.mod_lt; done).
  assert (A : seed_amount o < two64).
  { unfold seed_amount. transitivity (2 ^ 32); [|done]. apply N.mod_lt. done. }
  destruct (all_differ (commit_of sha (pub_of sk)) (seed_amount o) (N.to_nat (seed_count o))) as [ND|C];
    [lia|apply HS|done|done| |by right].
  left. pose proof (l_rt _ (lawful_uset c_hash lawful_hash consuming_hash) (seeder_hashes sha pub_of o sk s) []) as R.
  rewrite app_nil_r in R. rewrite R; [done|]. cbn [dom c_uset]. split_and!.
  - assert (Q : (length (seeder_hashes sha pub_of o sk s) <= N.to_nat (seed_count o))%nat).
    { etransitivity; [apply filter_count|]. by rewrite map_length, seq_length. }
    unfold len. change hash with N in Q. lia.
  - unfold seeder_hashes. apply NoDup_ListNoDup. apply List.NoDup_filter. apply NoDup_ListNoDup.
    replace (map _ _) with (map (fun k => input_hash sha (seed_coin sha (commit_of sha (pub_of sk)) (seed_amount o) (N.of_nat k)))
      (seq 0 (N.to_nat (seed_count o)))); [done|].
    apply map_ext. intros k. symmetry. apply seeded_hash_coin.
  - by apply seeder_typed.
Qed.

End Gen.
