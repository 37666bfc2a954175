(** Proofs about configuration files: accepted and refused options. *)
From Coq Require Import NArith ZArith Ascii String Lia.
From stdpp Require Import base option list sets.
From Verif Require Import Base HexModel ConfigModel ConfigSpec ConfigText ConfigProofs ConfigOptions.
Open Scope N_scope.

Section Check.
Context {D : Type} (stod : string -> option D) (zero one : D).
Context (env : string -> option string).
Implicit Types (p : parser (D := D)) (o : options (D := D)).

Lemma number_or_det p n d x y : number_or stod env p n d x -> number_or stod env p n d y -> x = y.
Proof. intros (a & A & ->) (b & B & ->). unfold says_number in *. congruence. Qed.
Lemma number_is_det p n x y : number_is stod env p n x -> number_is stod env p n y -> x = y.
Proof. unfold number_is, says_number. congruence. Qed.
Lemma listed_length {A B} n (R : N -> A -> Prop) (Q : N -> B -> Prop) l l' :
  listed n R l -> listed n Q l' -> length l = length l'.
Proof. intros [L _] [L' _]. lia. Qed.
Lemma listed_nodes {A B} n p w (R : N -> N -> A -> Prop) (Q : N -> N -> B -> Prop) l l' i a b :
  listed n (fun i l => exists m, number_is stod env p (Of w i "count") m /\ listed m (R i) l) l ->
  listed n (fun i l => exists m, number_is stod env p (Of w i "count") m /\ listed m (Q i) l) l' ->
  l !! i = Some a -> l' !! i = Some b -> length a = length b.
Proof.
  intros [_ H] [_ H'] Ha Hb. destruct (H _ _ Ha) as (m & M & L). destruct (H' _ _ Hb) as (m' & M' & L').
  rewrite <- (number_is_det _ _ _ _ M M') in L'. by apply (listed_length m _ _ _ _ L L').
Qed.

Lemma pubkeys_spec (s : sentinel_opts) : base.NoDup (pubkeys s) /\
  forall k, k ∈ pubkeys s <-> Some k ∈ o_sentinel_pub s.
Proof.
  split; [apply NoDup_remove_dups|]. intros k. unfold pubkeys.
  rewrite elem_of_remove_dups, elem_of_list_omap. split.
  - intros (x & Hx & E). unfold id in E. by subst.
  - intros H. by exists (Some k).
Qed.

Lemma pubkeys_most (s : sentinel_opts) (ks : list bytes) : base.NoDup ks ->
  (forall k, k ∈ ks -> Some k ∈ o_sentinel_pub s) -> (length ks <= length (pubkeys s))%nat.
Proof.
  intros N H. apply submseteq_length, NoDup_submseteq; [done|].
  intros k Hk. by apply pubkeys_spec, H.
Qed.

Lemma omap_length {A B} (f : A -> option B) l : (length (omap f l) <= length l)%nat.
Proof.
  induction l as [|a l IH]; [done|]. cbn [omap list_omap]. destruct (f a); cbn [length]; lia.
Qed.

Lemma pubkeys_few (s : sentinel_opts) : (length (pubkeys s) <= length (o_sentinel_pub s))%nat.
Proof.
  transitivity (length (omap id (o_sentinel_pub s))); [|apply omap_length].
  unfold pubkeys. apply submseteq_length, NoDup_submseteq; [apply NoDup_remove_dups|].
  intros k. by rewrite elem_of_remove_dups.
Qed.

Lemma empty_true {A} (l : list A) : empty l = true <-> l = [].
Proof. by destruct l. Qed.
Lemma empty_false {A} (l : list A) : empty l = false <-> l <> [].
Proof. by destruct l. Qed.

(** What check_options found. *)
Lemma check_some o r : check_options o = Some r -> breaks o r.
Proof.
  unfold check_options. set (m := if o_twophase o then _ else _).
  assert (M : forall r, m = Some r -> breaks o r).
  { intros r'. unfold m. destruct (o_twophase o) eqn:T.
    - destruct (empty (o_sentinel_eps _)) eqn:E1.
      { intros [= <-]. apply empty_true in E1. by split. }
      destruct (_ <? _) eqn:E2. { intros [= <-]. by apply N.ltb_lt in E2. }
      destruct (empty (o_ls_eps _)) eqn:E3. { intros [= <-]. apply empty_true in E3. by split. }
      destruct (empty (o_co_eps _)) eqn:E4; [|done]. intros [= <-]. apply empty_true in E4. by split.
    - destruct (empty (o_wt_client _)) eqn:E1.
      { intros [= <-]. apply empty_true in E1. by split. }
      destruct (empty (o_archiver_eps _)) eqn:E2. { intros [= <-]. apply empty_true in E2. by split. }
      destruct (_ && _) eqn:E3.
      { intros [= <-]. apply andb_true_iff in E3 as [A B]. apply empty_true in A.
        apply negb_true_iff, empty_false in B. by split. }
      destruct (empty (o_atomizer_eps _)) eqn:E4; [|done]. intros [= <-]. apply empty_true in E4. by split. }
  destruct m as [r'|]; [intros [= <-]; by apply M|]. cbn zeta.
  destruct (_ && _) eqn:E1.
  { intros [= <-]. apply andb_true_iff in E1 as [_ B]. by apply N.ltb_lt in B. }
  destruct (_ && _) eqn:E2 in |- *.
  { intros [= <-]. apply andb_true_iff in E2 as [A B]. apply negb_true_iff, N.eqb_neq in A.
    apply N.eqb_eq in B. by split. }
  clear E1 E2. destruct (_ <? _) eqn:E3; [|discriminate]. intros [= <-]. apply N.ltb_lt in E3. cbn [breaks].
  intros ks N H. pose proof (pubkeys_most _ ks N H). lia.
Qed.

Lemma check_none o r : check_options o = None ->
  match r with RuleAttestors => o_twophase o = false | _ => True end \/ True ->
  match r with RuleAttestors => True | _ => ~ breaks o r end.
Proof.
  intros C _. unfold check_options in C. set (m := if o_twophase o then _ else _) in C.
  destruct m as [?|] eqn:M; [discriminate|]. cbn zeta in C.
  destruct (negb _ && (_ <? _)) eqn:E1 in C; [discriminate|].
  destruct (negb _ && (_ =? 0)) eqn:E2 in C; [discriminate|].
  destruct (N.of_nat (length (pubkeys _)) <? _) eqn:E3 in C; [discriminate|]. clear C.
  apply N.ltb_ge in E3. unfold m in M. clear m.
  destruct (o_twophase o) eqn:T.
  - destruct (empty (o_sentinel_eps _)) eqn:F1; [discriminate|].
    destruct (N.of_nat (length (o_sentinel_eps _)) <? _) eqn:F2 in M; [discriminate|].
    destruct (empty (o_ls_eps _)) eqn:F3; [discriminate|].
    destruct (empty (o_co_eps _)) eqn:F4; [discriminate|].
    apply empty_false in F1, F3, F4.
    destruct r; cbn [breaks]; try done; rewrite ?T; try (by intros [? ?]).
    + intros Q. rewrite andb_false_iff, negb_false_iff, N.eqb_eq, N.ltb_ge in E1. lia.
    + intros [Q1 Q2]. rewrite andb_false_iff, negb_false_iff, N.eqb_eq, N.eqb_neq in E2. lia.
    + intros Q. destruct (pubkeys_spec (o_sentinels o)) as [N1 N2].
      specialize (Q _ N1 (fun k Hk => proj1 (N2 k) Hk)). lia.
    + by intros [].
    + by intros [].
  - destruct (empty (o_wt_client _)) eqn:F1; [discriminate|].
    destruct (empty (o_archiver_eps _)) eqn:F2; [discriminate|].
    destruct (empty _ && negb _) eqn:F3 in M; [discriminate|].
    destruct (empty (o_atomizer_eps _)) eqn:F4; [discriminate|].
    apply empty_false in F1, F2, F4.
    destruct r; cbn [breaks]; try done; rewrite ?T; try (by intros [? ?]).
    + intros (_ & Q1 & Q2). apply empty_true in Q1. apply empty_false in Q2.
      by rewrite Q1, Q2 in F3.
    + intros Q. rewrite andb_false_iff, negb_false_iff, N.eqb_eq, N.ltb_ge in E1. lia.
    + intros [Q1 Q2]. rewrite andb_false_iff, negb_false_iff, N.eqb_eq, N.eqb_neq in E2. lia.
    + intros Q. destruct (pubkeys_spec (o_sentinels o)) as [N1 N2].
      specialize (Q _ N1 (fun k Hk => proj1 (N2 k) Hk)). lia.
    + by intros [].
    + by intros [].
Qed.

Lemma load_val file o : load_options stod zero one env file = Val o ->
  exists p, init stod file = Val p /\ read_options stod zero one env file = Val o /\
  faithful stod zero one env p o /\ check_options o = None.
Proof.
  unfold load_options. intros H. step H o' Ho. destruct (check_options o') eqn:C; [discriminate|].
  injection H as ->. pose proof Ho as R. unfold read_options in R. step R p Hp.
  exists p. split_and!; [done|done| |done]. by apply (read_faithful stod zero one env file p o Hp).
Qed.

Lemma hash_is_32 s b : hash_from_hex s = HashIs b -> length b = 32%nat.
Proof.
  unfold hash_from_hex. destruct (Nat.compare _ _) eqn:E; try discriminate.
  intros [= <-]. by apply Nat.compare_eq.
Qed.

Lemma load_accepted file o : load_options stod zero one env file = Val o -> accepted o.
Proof.
  intros H. apply load_val in H as (p & _ & _ & F & C).
  assert (NB : forall r, match r with RuleAttestors => True | _ => ~ breaks o r end).
  { intros r. by apply (check_none o r C); right. }
  destruct (f_sentinels _ _ _ _ _ _ F) as (sn & Hsn & S1 & S2 & S3 & S4).
  assert (K : o_threshold (o_sentinels o) <= N.of_nat (length (pubkeys (o_sentinels o)))).
  { destruct (N.le_gt_cases (o_threshold (o_sentinels o)) (N.of_nat (length (pubkeys (o_sentinels o)))))
      as [?|G]; [done|].
    exfalso. apply (NB RulePublicKeys). cbn [breaks]. intros ks N HK.
    pose proof (pubkeys_most _ ks N HK). lia. }
  constructor.
  - intros T. split_and!; intros E.
    + by apply (NB RuleSentinel).
    + by apply (NB RuleShard).
    + by apply (NB RuleCoordinator).
  - intros T. split_and!; [| | |intros Q]; intros E.
    + by apply (NB RuleWatchtower).
    + by apply (NB RuleArchiver).
    + by apply (NB RuleAtomizer).
    + by apply (NB RuleSentinelShard).
  - exists (pubkeys (o_sentinels o)). destruct (pubkeys_spec (o_sentinels o)) as [N1 N2].
    split_and!; [done|intros k Hk; by apply N2|done].
  - pose proof (pubkeys_few (o_sentinels o)) as P. destruct S1 as [S1 _]. destruct S4 as [S4 _]. lia.
  - pose proof (f_seed _ _ _ _ _ _ F) as Q.
    destruct (o_seed_from (o_shards o) =? o_seed_to (o_shards o)) eqn:E; [left; by apply N.eqb_eq|].
    apply N.eqb_neq in E. right. destruct Q as ((s & b & _ & _ & Hb & Hs) & _). split_and!.
    + assert (~ o_seed_to (o_shards o) < o_seed_from (o_shards o)) by apply (NB RuleSeedOrder). lia.
    + intros V. by apply (NB RuleSeedValue).
    + exists b. split; [done|by apply (hash_is_32 s)].
  - split; [apply (listed_length _ _ _ _ _ S2 S1)|apply (listed_length _ _ _ _ _ S3 S1)].
  - destruct (f_shards _ _ _ _ _ _ F) as (n & Hn & A & B & E). cbn zeta.
    split; [apply (listed_length _ _ _ _ _ B E)|].
    pose proof (f_locking _ _ _ _ _ _ F) as L. destruct (o_twophase o).
    + destruct L as (n' & Hn' & L1 & L2 & L3). rewrite (number_or_det _ _ _ _ _ Hn' Hn) in L1, L2, L3.
      split_and!; [apply (listed_length _ _ _ _ _ L1 E)|apply (listed_length _ _ _ _ _ L2 E)
        |apply (listed_length _ _ _ _ _ L3 E)|].
      intros i a b c Ha Hb Hc. split.
      * by apply (listed_nodes _ _ _ _ _ _ _ _ _ _ L1 L2 Ha Hb).
      * by apply (listed_nodes _ _ _ _ _ _ _ _ _ _ L1 L3 Ha Hc).
    + destruct A as [A1 A2]. split; [apply (listed_length _ _ _ _ _ A1 E)|apply (listed_length _ _ _ _ _ A2 E)].
  - destruct (f_atomizers _ _ _ _ _ _ F) as (n & Hn & A & B & E).
    split; [apply (listed_length _ _ _ _ _ B A)|apply (listed_length _ _ _ _ _ E A)].
  - destruct (f_archivers _ _ _ _ _ _ F) as (n & Hn & A & B & E).
    split; [apply (listed_length _ _ _ _ _ B A)|apply (listed_length _ _ _ _ _ E A)].
  - destruct (f_watchtowers _ _ _ _ _ _ F) as (n & Hn & A & B & E).
    split; [apply (listed_length _ _ _ _ _ E A)|apply (listed_length _ _ _ _ _ B A)].
  - destruct (f_coordinators _ _ _ _ _ _ F) as (n & Hn & A & B & E).
    split_and!; [apply (listed_length _ _ _ _ _ A E)|apply (listed_length _ _ _ _ _ B E)|].
    intros i a b Ha Hb. by apply (listed_nodes _ _ _ _ _ _ _ _ _ _ E B Ha Hb).
Qed.

(** * Refusals *)
Lemma endpoint_bad p k e : required k (get_endpoint stod env p k) = Bad e ->
  get_string stod env p k = Val None /\ e = Missing k.
Proof.
  intros H. apply required_bad in H as [H|[H ->]]; [by apply get_endpoint_bad in H|].
  split; [|done]. unfold get_endpoint in H. step H s Hs. destruct s as [s|]; [|done].
  step H x Hx. discriminate.
Qed.
Lemma text_bad p k e : required k (get_string stod env p k) = Bad e ->
  get_string stod env p k = Val None /\ e = Missing k.
Proof. intros H. apply required_bad in H as [H|[H ->]]; [by apply get_string_bad in H|done]. Qed.
Lemma number_bad p k e : required k (get_ulong stod env p k) = Bad e ->
  get_ulong stod env p k = Val None /\ e = Missing k.
Proof. intros H. apply required_bad in H as [H|[H ->]]; [by apply get_ulong_bad in H|done]. Qed.

Definition missing p (e : cfg_error) : Prop :=
  exists k n kd, e = Missing k /\ k = spelled n /\ needed stod env p n kd /\ absent stod env p n kd.

Lemma missing_text p k n : k = spelled n -> needed stod env p n AsText ->
  get_string stod env p k = Val None -> missing p (Missing k).
Proof. intros -> N H. by exists (spelled n), n, AsText. Qed.
Lemma missing_number p k n : k = spelled n -> needed stod env p n AsNumber ->
  get_ulong stod env p k = Val None -> missing p (Missing k).
Proof. intros -> N H. by exists (spelled n), n, AsNumber. Qed.

Ltac bad H x Hx :=
  apply obind_bad in H as [H|(x & Hx & H)];
  [try (by apply ulong_or_bad in H); try (by apply loglevel_bad in H); try (by apply get_string_bad in H);
   try (by apply key_of_hex_bad in H); try (by apply resize_bad in H); try (by apply decimal_or_bad in H)|].

Lemma sentinels_bad p e : read_sentinel_options stod env p = Bad e -> missing p e.
Proof.
  unfold read_sentinel_options. intros H. bad H t Ht. bad H n Hn. bad H l Hl; [|discriminate].
  apply (ulong_or_val stod env p _ _ _ (Plain "attestation_threshold")) in Ht; [|done].
  apply (ulong_or_val stod env p _ _ _ (Plain "sentinel_count")) in Hn; [|done].
  apply upto_bad in H as (i & Hi & H). unfold read_sentinel in H.
  bad H ep Hep. { apply endpoint_bad in H as [H ->].
    apply (missing_text p _ (Of "sentinel" i "endpoint")); [done| |done]. by apply (nd_sentinel stod env p n). }
  bad H lg Hlg. bad H ps Hps.
  bad H pr Hpr. { destruct ps; [|discriminate]. bad H x Hx. discriminate. }
  bad H us Hus. bad H ub Hub; [|discriminate].
  destruct us as [s|]. { bad H x Hx. discriminate. }
  destruct (t =? 0) eqn:E; [discriminate|]. injection H as <-. apply N.eqb_neq in E.
  apply (missing_text p _ (Of "sentinel" i "public_key")); [done| |done].
  by apply (nd_sentinel_key stod env p n i t).
Qed.

Lemma locking_bad p m e : number_or stod env p (Plain "2pc") 0 m ->
  read_shard_endpoints stod env p (negb (m =? 0)) = Bad e -> missing p e.
Proof.
  unfold read_shard_endpoints. intros Hm H. bad H n Hn.
  apply (ulong_or_val stod env p _ _ _ (Plain "shard_count")) in Hn; [|done].
  destruct (m =? 0) eqn:E; [discriminate|]. apply N.eqb_neq in E. cbn [negb] in H.
  bad H u Hu. bad H l Hl; [|discriminate]. apply upto_bad in H as (i & Hi & H).
  unfold read_shard_nodes in H. bad H c Hc.
  { apply number_bad in H as [H ->]. apply (missing_number p _ (Of "shard" i "count")); [done| |done].
    by apply (nd_shard_nodes stod env p n i m). }
  apply (number_val stod env p _ _ (Of "shard" i "count")) in Hc; [|done].
  apply upto_bad in H as (j & Hj & H). unfold read_shard_node in H.
  bad H x1 H1. { apply endpoint_bad in H as [H ->].
    apply (missing_text p _ (OfNode "shard" i j "raft_endpoint")); [done| |done].
    apply (nd_shard_node stod env p n i m c); try done. set_solver. }
  bad H x2 H2. { apply endpoint_bad in H as [H ->].
    apply (missing_text p _ (OfNode "shard" i j "endpoint")); [done| |done].
    apply (nd_shard_node stod env p n i m c); try done. set_solver. }
  bad H x3 H3; [|discriminate]. apply endpoint_bad in H as [H ->].
  apply (missing_text p _ (OfNode "shard" i j "readonly_endpoint")); [done| |done].
  apply (nd_shard_node stod env p n i m c); try done. set_solver.
Qed.

Definition seed_reason p (e : cfg_error) : Prop :=
  exists a b, number_or stod env p (Plain "seed_from") 0 a /\ number_or stod env p (Plain "seed_to") 0 b /\
  a <> b /\
  (e = Broken RuleSeedKey /\ says_text stod env p (Plain "seed_privkey") None \/
   e = Broken RuleSeedKeyLength /\ exists s, text_is stod env p (Plain "seed_privkey") s /\ length s <> 64%nat).

Lemma shards_bad p m e : number_or stod env p (Plain "2pc") 0 m ->
  read_shard_options stod env p (negb (m =? 0)) = Bad e -> missing p e \/ seed_reason p e.
Proof.
  unfold read_shard_options. intros Hm H. bad H n Hn.
  apply (ulong_or_val stod env p _ _ _ (Plain "shard_count")) in Hn; [|done].
  bad H l Hl.
  - left. apply upto_bad in H as (i & Hi & H). unfold read_shard in H.
    bad H loc Hloc.
    { destruct (m =? 0) eqn:E; cbn [negb] in H; [|discriminate]. apply N.eqb_eq in E. subst m.
      bad H x1 H1. { apply endpoint_bad in H as [H ->].
        apply (missing_text p _ (Of "shard" i "endpoint")); [done| |done].
        apply (nd_shard stod env p n); try done. set_solver. }
      bad H x2 H2; [|discriminate]. apply text_bad in H as [H ->].
      apply (missing_text p _ (Of "shard" i "db")); [done| |done].
      apply (nd_shard stod env p n); try done. set_solver. }
    bad H lg Hlg.
    bad H a Ha. { apply number_bad in H as [H ->].
      apply (missing_number p _ (Of "shard" i "start")); [done| |done].
      apply (nd_shard_range stod env p n); try done. set_solver. }
    bad H b Hb; [|discriminate]. apply number_bad in H as [H ->].
    apply (missing_number p _ (Of "shard" i "end")); [done| |done].
    apply (nd_shard_range stod env p n); try done. set_solver.
  - right. bad H c Hc. bad H a Ha. bad H b Hb. bad H x Hx; [|destruct x; discriminate].
    apply (ulong_or_val stod env p _ _ _ (Plain "seed_from")) in Ha; [|done].
    apply (ulong_or_val stod env p _ _ _ (Plain "seed_to")) in Hb; [|done].
    destruct (a =? b) eqn:E; [discriminate|]. apply N.eqb_neq in E.
    exists a, b. split_and!; [done|done|done|].
    bad H ps Hps. destruct ps as [s|].
    + right. destruct (length s =? 64)%nat eqn:L.
      { bad H x Hx. bad H y Hy. discriminate. }
      injection H as <-. split; [done|]. exists s. split; [exact Hps|]. by apply Nat.eqb_neq.
    + left. injection H as <-. by split.
Qed.

Lemma atomizers_bad p e : read_atomizer_options stod env p = Bad e -> missing p e.
Proof.
  unfold read_atomizer_options. intros H. bad H n Hn.
  apply (ulong_or_val stod env p _ _ _ (Plain "atomizer_count")) in Hn; [|done].
  bad H l Hl.
  - apply upto_bad in H as (i & Hi & H). unfold read_atomizer in H.
    bad H x1 H1. { apply endpoint_bad in H as [H ->].
      apply (missing_text p _ (Of "atomizer" i "endpoint")); [done| |done].
      apply (nd_atomizer stod env p n); try done. set_solver. }
    bad H x2 H2. bad H x3 H3; [|discriminate]. apply endpoint_bad in H as [H ->].
    apply (missing_text p _ (Of "atomizer" i "raft_endpoint")); [done| |done].
    apply (nd_atomizer stod env p n); try done. set_solver.
  - bad H a Ha. bad H b Hb. discriminate.
Qed.

Lemma archivers_bad p e : read_archiver_options stod env p = Bad e -> missing p e.
Proof.
  unfold read_archiver_options. intros H. bad H n Hn.
  apply (ulong_or_val stod env p _ _ _ (Plain "archiver_count")) in Hn; [|done].
  bad H l Hl; [|discriminate].
  apply upto_bad in H as (i & Hi & H). unfold read_archiver in H.
  bad H x1 H1. { apply endpoint_bad in H as [H ->].
    apply (missing_text p _ (Of "archiver" i "endpoint")); [done| |done].
    apply (nd_archiver stod env p n); try done. set_solver. }
  bad H x2 H2. bad H x3 H3; [|discriminate]. apply text_bad in H as [H ->].
  apply (missing_text p _ (Of "archiver" i "db")); [done| |done].
  apply (nd_archiver stod env p n); try done. set_solver.
Qed.

Lemma watchtowers_bad p e : read_watchtower_options stod env p = Bad e -> missing p e.
Proof.
  unfold read_watchtower_options. intros H. bad H n Hn.
  apply (ulong_or_val stod env p _ _ _ (Plain "watchtower_count")) in Hn; [|done].
  bad H l Hl.
  - apply upto_bad in H as (i & Hi & H). unfold read_watchtower in H.
    bad H x1 H1. { apply endpoint_bad in H as [H ->].
      apply (missing_text p _ (Of "watchtower" i "client_endpoint")); [done| |done].
      apply (nd_watchtower stod env p n); try done. set_solver. }
    bad H x2 H2. { apply endpoint_bad in H as [H ->].
      apply (missing_text p _ (Of "watchtower" i "internal_endpoint")); [done| |done].
      apply (nd_watchtower stod env p n); try done. set_solver. }
    bad H x3 H3. discriminate.
  - bad H a Ha. bad H b Hb. discriminate.
Qed.

Lemma coordinators_bad p e : read_coordinator_options stod env p = Bad e -> missing p e.
Proof.
  unfold read_coordinator_options. intros H. bad H n Hn.
  apply (ulong_or_val stod env p _ _ _ (Plain "coordinator_count")) in Hn; [|done].
  bad H u Hu. bad H l Hl.
  - apply upto_bad in H as (i & Hi & H). unfold read_coordinator in H.
    bad H lg Hlg. bad H c Hc. { apply number_bad in H as [H ->].
      apply (missing_number p _ (Of "coordinator" i "count")); [done| |done].
      by apply (nd_coordinator_nodes stod env p n). }
    apply (number_val stod env p _ _ (Of "coordinator" i "count")) in Hc; [|done].
    bad H ls Hls; [|discriminate]. apply upto_bad in H as (j & Hj & H).
    unfold read_coordinator_node in H.
    bad H x1 H1. { apply endpoint_bad in H as [H ->].
      apply (missing_text p _ (OfNode "coordinator" i j "raft_endpoint")); [done| |done].
      apply (nd_coordinator_node stod env p n i c); try done. set_solver. }
    bad H x2 H2; [|discriminate]. apply endpoint_bad in H as [H ->].
    apply (missing_text p _ (OfNode "coordinator" i j "endpoint")); [done| |done].
    apply (nd_coordinator_node stod env p n i c); try done. set_solver.
  - bad H a Ha. discriminate.
Qed.

Lemma read_bad file p e : init stod file = Val p ->
  read_options stod zero one env file = Bad e -> missing p e \/ seed_reason p e.
Proof.
  intros Hp H. unfold read_options in H. rewrite Hp in H. cbn [obind] in H.
  bad H mode Hm. apply (ulong_or_val stod env p _ _ _ (Plain "2pc")) in Hm; [|done].
  bad H x1 H1; [left; by apply sentinels_bad|].
  bad H x2 H2; [left; by apply (locking_bad p mode)|].
  bad H x3 H3; [by apply (shards_bad p mode)|].
  bad H x4 H4; [left; by apply atomizers_bad|].
  bad H x5 H5; [left; by apply archivers_bad|].
  bad H x6 H6; [left; by apply watchtowers_bad|].
  bad H x7 H7; [left; by apply coordinators_bad|].
  bad H x8 H8.
  { unfold read_raft_options in H. bad H a1 A1. bad H a2 A2. bad H a3 A3. bad H a4 A4. bad H a5 A5.
    bad H a6 A6. discriminate. }
  bad H x9 H9; [|discriminate].
  unfold read_loadgen_options in H. bad H a1 A1. bad H a2 A2. bad H a3 A3. bad H a4 A4. bad H a5 A5.
  bad H a6 A6. bad H a7 A7. bad H a8 A8. discriminate.
Qed.

Lemma load_bad file e : load_options stod zero one env file = Bad e -> reason stod zero one env file e.
Proof.
  unfold load_options. intros H. apply obind_bad in H as [H|(o & Ho & H)].
  - destruct (init stod file) as [p|x| | |] eqn:Hp.
    2: { by apply init_bad in Hp. }
    2-4: unfold read_options in H; rewrite Hp in H; discriminate.
    exists p. split; [done|].
    destruct (read_bad file p e Hp H) as [(k & n & kd & -> & -> & N & A)|(a & b & Ha & Hb & E & [[-> R]|[-> R]])].
    + by exists n, kd.
    + split; [by exists a, b|done].
    + split; [by exists a, b|done].
  - destruct (check_options o) as [r|] eqn:C; [|discriminate]. injection H as <-.
    pose proof Ho as R. unfold read_options in R. step R p Hp. exists p. split; [done|].
    apply check_some in C. pose proof (read_faithful stod zero one env file p o Hp Ho) as F.
    destruct r; try (by exists o); by destruct C.
Qed.

End Check.
