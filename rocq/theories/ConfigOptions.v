(** Proofs about configuration files: what the options mean and why they are refused. *)
From Coq Require Import NArith ZArith Ascii String Lia.
From stdpp Require Import base option list.
From Verif Require Import Base HexModel ConfigModel ConfigSpec ConfigText ConfigProofs.
Open Scope N_scope.

Ltac step H x Hx := apply obind_val in H as (x & Hx & H).

Section Options.
Context {D : Type} (stod : string -> option D) (zero one : D).
Context (env : string -> option string).
Implicit Types (p : parser (D := D)) (o : options (D := D)).

(** * Each part is what the file says *)

Lemma sentinel_val p t i x : read_sentinel stod env p t i = Val x ->
  endpoint_is stod env p (Of "sentinel" i "endpoint") x.1.1.1 /\
  log_is stod env p (Of "sentinel" i "loglevel") x.1.1.2 /\
  key_is stod env p (Of "sentinel" i "private_key") x.1.2 /\
  key_is stod env p (Of "sentinel" i "public_key") x.2 /\ (x.2 = None -> t = 0).
Proof.
  unfold read_sentinel. intros H. step H ep He. step H lg Hl. step H ps Hps. step H pr Hpr.
  step H us Hus. step H ub Hub. injection H as <-. cbn [fst snd].
  split_and!.
  - by apply (endpoint_val stod env p _ _ (Of "sentinel" i "endpoint")) in He.
  - by apply (log_val stod env p _ _ (Of "sentinel" i "loglevel")) in Hl.
  - destruct ps as [s|]; [|injection Hpr as <-; exact Hps].
    step Hpr b Hb. injection Hpr as <-. exists s. split; [exact Hps|by apply hex_val].
  - destruct us as [s|].
    + step Hub b Hb. injection Hub as <-. exists s. split; [exact Hus|by apply hex_val].
    + destruct (t =? 0); [|discriminate]. injection Hub as <-. exact Hus.
  - intros ->. destruct us as [s|].
    + step Hub b Hb. discriminate.
    + destruct (t =? 0) eqn:E; [by apply N.eqb_eq|discriminate].
Qed.

Lemma node_val p i j x : read_shard_node stod env p i j = Val x ->
  endpoint_is stod env p (OfNode "shard" i j "raft_endpoint") x.1.1 /\
  endpoint_is stod env p (OfNode "shard" i j "endpoint") x.1.2 /\
  endpoint_is stod env p (OfNode "shard" i j "readonly_endpoint") x.2.
Proof.
  unfold read_shard_node. intros H. step H ra Hra. step H ep Hep. step H ro Hro. injection H as <-.
  cbn [fst snd].
  split_and!.
  - by apply (endpoint_val stod env p _ _ (OfNode "shard" i j "raft_endpoint")) in Hra.
  - by apply (endpoint_val stod env p _ _ (OfNode "shard" i j "endpoint")) in Hep.
  - by apply (endpoint_val stod env p _ _ (OfNode "shard" i j "readonly_endpoint")) in Hro.
Qed.

Lemma nodes_val p i l : read_shard_nodes stod env p i = Val l ->
  exists m, number_is stod env p (Of "shard" i "count") m /\
  upto m (read_shard_node stod env p i) = Val l.
Proof.
  unfold read_shard_nodes. intros H. step H n Hn. exists n. split; [|done].
  by apply (number_val stod env p _ _ (Of "shard" i "count")) in Hn.
Qed.

Lemma shard_val p tw i x : read_shard stod env p tw i = Val x ->
  (if tw then x.1.1 = None
   else exists e d, x.1.1 = Some (e, d) /\ endpoint_is stod env p (Of "shard" i "endpoint") e /\
        text_is stod env p (Of "shard" i "db") d) /\
  log_is stod env p (Of "shard" i "loglevel") x.1.2 /\
  exists a b, number_is stod env p (Of "shard" i "start") a /\
    number_is stod env p (Of "shard" i "end") b /\ x.2 = (a mod 256, b mod 256).
Proof.
  unfold read_shard. intros H. step H loc Hloc. step H lg Hlg. step H a Ha. step H b Hb.
  injection H as <-. cbn [fst snd]. split_and!.
  - destruct tw; [congruence|]. step Hloc e He. step Hloc d Hd. injection Hloc as <-.
    exists e, d. split_and!; [done| |].
    + by apply (endpoint_val stod env p _ _ (Of "shard" i "endpoint")) in He.
    + by apply (text_val stod env p _ _ (Of "shard" i "db")) in Hd.
  - by apply (log_val stod env p _ _ (Of "shard" i "loglevel")) in Hlg.
  - exists a, b. split_and!; [| |done].
    + by apply (number_val stod env p _ _ (Of "shard" i "start")) in Ha.
    + by apply (number_val stod env p _ _ (Of "shard" i "end")) in Hb.
Qed.

Lemma atomizer_val p i x : read_atomizer stod env p i = Val x ->
  endpoint_is stod env p (Of "atomizer" i "endpoint") x.1.1 /\
  log_is stod env p (Of "atomizer" i "loglevel") x.1.2 /\
  endpoint_is stod env p (Of "atomizer" i "raft_endpoint") x.2.
Proof.
  unfold read_atomizer. intros H. step H a Ha. step H b Hb. step H c Hc. injection H as <-.
  cbn [fst snd]. split_and!.
  - by apply (endpoint_val stod env p _ _ (Of "atomizer" i "endpoint")) in Ha.
  - by apply (log_val stod env p _ _ (Of "atomizer" i "loglevel")) in Hb.
  - by apply (endpoint_val stod env p _ _ (Of "atomizer" i "raft_endpoint")) in Hc.
Qed.

Lemma archiver_val p i x : read_archiver stod env p i = Val x ->
  endpoint_is stod env p (Of "archiver" i "endpoint") x.1.1 /\
  log_is stod env p (Of "archiver" i "loglevel") x.1.2 /\
  text_is stod env p (Of "archiver" i "db") x.2.
Proof.
  unfold read_archiver. intros H. step H a Ha. step H b Hb. step H c Hc. injection H as <-.
  cbn [fst snd]. split_and!.
  - by apply (endpoint_val stod env p _ _ (Of "archiver" i "endpoint")) in Ha.
  - by apply (log_val stod env p _ _ (Of "archiver" i "loglevel")) in Hb.
  - by apply (text_val stod env p _ _ (Of "archiver" i "db")) in Hc.
Qed.

Lemma watchtower_val p i x : read_watchtower stod env p i = Val x ->
  endpoint_is stod env p (Of "watchtower" i "client_endpoint") x.1.1 /\
  endpoint_is stod env p (Of "watchtower" i "internal_endpoint") x.1.2 /\
  log_is stod env p (Of "watchtower" i "loglevel") x.2.
Proof.
  unfold read_watchtower. intros H. step H a Ha. step H b Hb. step H c Hc. injection H as <-.
  cbn [fst snd]. split_and!.
  - by apply (endpoint_val stod env p _ _ (Of "watchtower" i "client_endpoint")) in Ha.
  - by apply (endpoint_val stod env p _ _ (Of "watchtower" i "internal_endpoint")) in Hb.
  - by apply (log_val stod env p _ _ (Of "watchtower" i "loglevel")) in Hc.
Qed.

Lemma co_node_val p i j x : read_coordinator_node stod env p i j = Val x ->
  endpoint_is stod env p (OfNode "coordinator" i j "raft_endpoint") x.1 /\
  endpoint_is stod env p (OfNode "coordinator" i j "endpoint") x.2.
Proof.
  unfold read_coordinator_node. intros H. step H a Ha. step H b Hb. injection H as <-.
  cbn [fst snd]. split.
  - by apply (endpoint_val stod env p _ _ (OfNode "coordinator" i j "raft_endpoint")) in Ha.
  - by apply (endpoint_val stod env p _ _ (OfNode "coordinator" i j "endpoint")) in Hb.
Qed.

Lemma coordinator_val p i x : read_coordinator stod env p i = Val x ->
  log_is stod env p (Of "coordinator" i "loglevel") x.1 /\
  exists m, number_is stod env p (Of "coordinator" i "count") m /\
    upto m (read_coordinator_node stod env p i) = Val x.2.
Proof.
  unfold read_coordinator. intros H. step H a Ha. step H n Hn. step H l Hl. injection H as <-.
  cbn [fst snd]. split.
  - by apply (log_val stod env p _ _ (Of "coordinator" i "loglevel")) in Ha.
  - exists n. split; [|done].
    by apply (number_val stod env p _ _ (Of "coordinator" i "count")) in Hn.
Qed.

Lemma omap_some {A B} (g : A -> option B) (h : A -> B) l :
  (forall j a, l !! j = Some a -> g a = Some (h a)) -> omap g l = map h l.
Proof.
  induction l as [|a l IH]; intros H; [done|]. cbn [omap list_omap map].
  rewrite (H 0%nat a) by done. f_equal. apply IH. intros j b Hb. by apply (H (S j)).
Qed.
Lemma omap_none {A B} (g : A -> option B) l :
  (forall j a, l !! j = Some a -> g a = None) -> omap g l = [].
Proof.
  induction l as [|a l IH]; intros H; [done|]. cbn [omap list_omap].
  rewrite (H 0%nat a) by done. apply IH. intros j b Hb. by apply (H (S j)).
Qed.

(** * All together *)
Lemma read_faithful file p o : init stod file = Val p ->
  read_options stod zero one env file = Val o -> faithful stod zero one env p o.
Proof.
  intros Hp H. unfold read_options in H. rewrite Hp in H. cbn [obind] in H.
  step H mode Hm. step H sen Hsen. step H loc Hloc. step H sh Hsh. step H atz Hat.
  step H ar Har. step H wt Hwt. step H co Hco. step H ra Hra. step H lo Hlo.
  injection H as <-.
  apply (ulong_or_val stod env p _ _ _ (Plain "2pc")) in Hm; [|done].
  unfold read_sentinel_options in Hsen.
  step Hsen t Ht. step Hsen sn Hsn. step Hsen sl Hsl. injection Hsen as <-.
  apply (ulong_or_val stod env p _ _ _ (Plain "attestation_threshold")) in Ht; [|done].
  apply (ulong_or_val stod env p _ _ _ (Plain "sentinel_count")) in Hsn; [|done].
  unfold read_shard_endpoints in Hloc. step Hloc ln Hln.
  apply (ulong_or_val stod env p _ _ _ (Plain "shard_count")) in Hln; [|done].
  unfold read_shard_options in Hsh. step Hsh hn Hhn. step Hsh hl Hhl. step Hsh cache Hcache.
  step Hsh from Hfrom. step Hsh to Hto. step Hsh pv Hpv. destruct pv as [priv val].
  injection Hsh as <-.
  apply (ulong_or_val stod env p _ _ _ (Plain "shard_count")) in Hhn; [|done].
  apply (ulong_or_val stod env p _ _ _ (Plain "shard_completed_txs_cache_size")) in Hcache; [|done].
  apply (ulong_or_val stod env p _ _ _ (Plain "seed_from")) in Hfrom; [|done].
  apply (ulong_or_val stod env p _ _ _ (Plain "seed_to")) in Hto; [|done].
  unfold read_atomizer_options in Hat. step Hat an Han. step Hat al Hal. step Hat iv Hiv.
  step Hat dp Hdp. injection Hat as <-.
  apply (ulong_or_val stod env p _ _ _ (Plain "atomizer_count")) in Han; [|done].
  apply (ulong_or_val stod env p _ _ _ (Plain "target_block_interval")) in Hiv; [|done].
  apply (ulong_or_val stod env p _ _ _ (Plain "stxo_cache_depth")) in Hdp; [|done].
  unfold read_archiver_options in Har. step Har rn Hrn. step Har rl Hrl. injection Har as <-.
  apply (ulong_or_val stod env p _ _ _ (Plain "archiver_count")) in Hrn; [|done].
  unfold read_watchtower_options in Hwt. step Hwt wn Hwn. step Hwt wl Hwl. step Hwt wb Hwb.
  step Hwt we Hwe. injection Hwt as <-.
  apply (ulong_or_val stod env p _ _ _ (Plain "watchtower_count")) in Hwn; [|done].
  apply (ulong_or_val stod env p _ _ _ (Plain "watchtower_block_cache_size")) in Hwb; [|done].
  apply (ulong_or_val stod env p _ _ _ (Plain "watchtower_error_cache_size")) in Hwe; [|done].
  unfold read_coordinator_options in Hco. step Hco cn Hcn. step Hco u Hu. step Hco cl Hcl.
  step Hco th Hth. injection Hco as <-.
  apply (ulong_or_val stod env p _ _ _ (Plain "coordinator_count")) in Hcn; [|done].
  apply (ulong_or_val stod env p _ _ _ (Plain "coordinator_max_threads")) in Hth; [|done].
  unfold read_raft_options in Hra. step Hra r1 Hr1. step Hra r2 Hr2. step Hra r3 Hr3.
  step Hra r4 Hr4. step Hra r5 Hr5. step Hra r6 Hr6. injection Hra as <-.
  apply (ulong_or_val stod env p _ _ _ (Plain "election_timeout_upper")) in Hr1; [|done].
  apply (ulong_or_val stod env p _ _ _ (Plain "election_timeout_lower")) in Hr2; [|done].
  apply (ulong_or_val stod env p _ _ _ (Plain "heartbeat")) in Hr3; [|done].
  apply (ulong_or_val stod env p _ _ _ (Plain "snapshot_distance")) in Hr4; [|done].
  apply (ulong_or_val stod env p _ _ _ (Plain "raft_max_batch")) in Hr5; [|done].
  apply (ulong_or_val stod env p _ _ _ (Plain "batch_size")) in Hr6; [|done].
  unfold read_loadgen_options in Hlo. step Hlo g1 Hg1. step Hlo g2 Hg2. step Hlo g3 Hg3.
  step Hlo g4 Hg4. step Hlo g5 Hg5. step Hlo g6 Hg6. step Hlo g7 Hg7. step Hlo g8 Hg8.
  injection Hlo as <-.
  apply (ulong_or_val stod env p _ _ _ (Plain "loadgen_sendtx_input_count")) in Hg1; [|done].
  apply (ulong_or_val stod env p _ _ _ (Plain "loadgen_sendtx_output_count")) in Hg2; [|done].
  apply (decimal_or_val stod env p _ _ _ (Plain "loadgen_invalid_tx_rate")) in Hg3; [|done].
  apply (decimal_or_val stod env p _ _ _ (Plain "loadgen_fixed_tx_rate")) in Hg4; [|done].
  apply (ulong_or_val stod env p _ _ _ (Plain "window_size")) in Hg5; [|done].
  apply (ulong_or_val stod env p _ _ _ (Plain "initial_mint_count")) in Hg6; [|done].
  apply (ulong_or_val stod env p _ _ _ (Plain "initial_mint_value")) in Hg7; [|done].
  apply (ulong_or_val stod env p _ _ _ (Plain "loadgen_count")) in Hg8; [|done].
  constructor; cbn [o_twophase o_sentinels o_locking o_shards o_atomizers o_archivers
    o_watchtowers o_coordinators o_raft o_loadgen o_threshold o_sentinel_eps o_sentinel_logs
    o_sentinel_priv o_sentinel_pub o_shard_eps o_shard_dbs o_shard_logs o_shard_ranges
    o_completed_cache o_seed_from o_seed_to o_seed_priv o_seed_value o_atomizer_eps
    o_atomizer_logs o_atomizer_raft o_block_interval o_stxo_depth o_archiver_eps
    o_archiver_logs o_archiver_dbs o_wt_client o_wt_internal o_wt_logs o_wt_blocks o_wt_errors
    o_co_logs o_co_raft o_co_eps o_co_threads o_election_upper o_election_lower o_heartbeat
    o_snapshot o_max_batch o_batch o_inputs o_outputs o_invalid o_fixed_rate o_fixed_mode
    o_window o_mint_count o_mint_value o_loadgens]; try assumption.
  - exists mode. split; [done|]. rewrite negb_true_iff, N.eqb_neq. done.
  - exists sn. split; [done|].
    split_and!; apply (listed_map _ _ _ _ _ Hsl); intros i a Ha; apply sentinel_val in Ha;
      destruct Ha as (A & B & C & E & F); first [done|by split].
  - destruct (negb (mode =? 0)).
    + step Hloc u0 Hu0. step Hloc l Hl. injection Hloc as <-. cbn [o_ls_eps o_ls_raft o_ls_ro].
      exists ln. split; [done|].
      split_and!; apply (listed_map _ _ _ _ _ Hl); intros i a Ha;
        apply nodes_val in Ha as (m & Hm' & Ha); exists m; (split; [done|]);
        apply (listed_map _ _ _ _ _ Ha); intros j b Hb; by apply node_val in Hb as (? & ? & ?).
    + by injection Hloc as <-.
  - exists hn. split; [done|]. split_and!.
    + destruct (negb (mode =? 0)).
      * pose proof (upto_val _ _ _ Hhl) as [_ R].
        split; apply omap_none; intros j a Ha; apply R in Ha; apply shard_val in Ha as (-> & _); done.
      * pose proof (upto_val _ _ _ Hhl) as [_ R]. split.
        -- rewrite (omap_some _ (fun x : option (endpoint * string) * log_level * (N * N) =>
             match x.1.1 with Some y => y.1 | None => ([], 0) end)).
           ++ apply (listed_map _ _ _ _ _ Hhl). intros i a Ha.
              apply shard_val in Ha as ((e & d & -> & He & Hd) & _). done.
           ++ intros j a Ha. apply R, shard_val in Ha as ((e & d & -> & He & Hd) & _). done.
        -- rewrite (omap_some _ (fun x : option (endpoint * string) * log_level * (N * N) =>
             match x.1.1 with Some y => y.2 | None => [] end)).
           ++ apply (listed_map _ _ _ _ _ Hhl). intros i a Ha.
              apply shard_val in Ha as ((e & d & -> & He & Hd) & _). done.
           ++ intros j a Ha. apply R, shard_val in Ha as ((e & d & -> & He & Hd) & _). done.
    + apply (listed_map _ _ _ _ _ Hhl). intros i a Ha. by apply shard_val in Ha as (_ & ? & _).
    + apply (listed_map _ _ _ _ _ Hhl). intros i a Ha. by apply shard_val in Ha as (_ & _ & ?).
  - destruct (from =? to); [injection Hpv as <- <-; done|].
    step Hpv ps Hps. destruct ps as [s|]; [|discriminate].
    destruct (length s =? 64)%nat eqn:L; [|discriminate].
    step Hpv k Hk. step Hpv v Hv. injection Hpv as <- <-. split.
    + exists s, k. split_and!; [done|by apply Nat.eqb_eq|by apply hex_val|done].
    + by apply (ulong_or_val stod env p _ _ _ (Plain "seed_value")) in Hv.
  - exists an. split; [done|].
    split_and!; apply (listed_map _ _ _ _ _ Hal); intros i a Ha; by apply atomizer_val in Ha as (? & ? & ?).
  - exists rn. split; [done|].
    split_and!; apply (listed_map _ _ _ _ _ Hrl); intros i a Ha; by apply archiver_val in Ha as (? & ? & ?).
  - exists wn. split; [done|].
    split_and!; apply (listed_map _ _ _ _ _ Hwl); intros i a Ha; by apply watchtower_val in Ha as (? & ? & ?).
  - exists cn. split; [done|]. split_and!; apply (listed_map _ _ _ _ _ Hcl); intros i a Ha;
      apply coordinator_val in Ha as (A & m & Hm' & Ha); [done| |];
      exists m; (split; [done|]); apply (listed_map _ _ _ _ _ Ha); intros j b Hb;
      by apply co_node_val in Hb as (? & ?).
  - by exists r1.
  - by exists r2.
  - by exists r3.
  - by exists r4.
  - by exists r5.
  - rewrite andb_true_iff, !negb_true_iff, !N.eqb_neq. done.
Qed.

End Options.
