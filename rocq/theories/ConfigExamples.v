(** Concrete configuration files. *)
From Coq Require Import NArith ZArith Ascii String Lia.
From stdpp Require Import base option list sets.
From Verif Require Import Base HexModel ConfigModel ConfigSpec ConfigText ConfigProofs ConfigOptions ConfigCheck ConfigTotal.
Open Scope N_scope.

(** Decimals are not looked at: all are [tt]. *)
Notation stod1 := (fun _ : string => Some tt).
Notation no_env := (fun _ : string => @None string).
Notation load1 f := (load_options stod1 tt tt no_env f).

Definition file (ls : list String.string) : string := concat (map (fun l => txt l ++ newline) ls).

Definition ex_key : String.string := "0000000000000001000000000000000000000000000000000000000000000000"%string.

(** 2pc-compose.cfg. *)
Definition compose_2pc : string := file [
  "2pc=1";
  "sentinel_count=1";
  "sentinel0_endpoint=""sentinel0:5555""";
  "sentinel0_loglevel=""WARN""";
  "sentinel0_private_key=""0000000000000001000000000000000000000000000000000000000000000000""";
  "sentinel0_public_key=""eaa649f21f51bdbae7be4ae34ce6e5217a58fdce7f47f9aa7f3b58fa2120e2b3""";
  "coordinator_count=1";
  "coordinator0_count=1";
  "coordinator0_loglevel=""INFO""";
  "coordinator0_0_endpoint=""coordinator0:7777""";
  "coordinator0_0_raft_endpoint=""coordinator0:7778""";
  "coordinator_max_threads=100";
  "shard_count=1";
  "shard0_start=0";
  "shard0_end=255";
  "shard0_count=1";
  "shard0_loglevel=""INFO""";
  "shard0_0_endpoint=""shard0:6666""";
  "shard0_0_raft_endpoint=""shard0:6667""";
  "shard0_0_readonly_endpoint=""shard0:6767"""]%string.

(** atomizer-compose.cfg. *)
Definition compose_atomizer : string := file [
  "atomizer_count=1";
  "atomizer0_endpoint=""atomizer0:5555""";
  "atomizer0_raft_endpoint=""atomizer0:6666""";
  "archiver_count=1";
  "archiver0_endpoint=""archiver0:4555""";
  "archiver0_db=""archiver0_db""";
  "shard_count=1";
  "shard0_endpoint=""shard0:6555""";
  "shard0_start=0";
  "shard0_end=255";
  "shard0_db=""shard0""";
  "sentinel_count=1";
  "sentinel0_endpoint=""sentinel0:7555""";
  "sentinel0_loglevel=""INFO""";
  "sentinel0_private_key=""0000000000000001000000000000000000000000000000000000000000000000""";
  "sentinel0_public_key=""eaa649f21f51bdbae7be4ae34ce6e5217a58fdce7f47f9aa7f3b58fa2120e2b3""";
  "watchtower_count=1";
  "watchtower0_client_endpoint=""watchtower0:8555""";
  "watchtower0_internal_endpoint=""watchtower0:8556""";
  "watchtower_block_cache_size=50";
  "target_block_interval=3000"]%string.

(** The same file, as settings. *)
Definition ex_entries : list entry := [
  Other (txt "# two sentinels");
  Setting (txt "sentinel_count") (Number 2);
  Other [];
  Setting (txt "sentinel1_endpoint") (Text (txt "127.0.0.1:5557"));
  Setting (txt "archiver0_db") (Text (txt "a=b"));
  Setting (txt "sentinel_count") (Number 3)].

Lemma entries_case : Forall writable ex_entries /\
  setting_of ex_entries (txt "sentinel_count") = Some (Number 2) /\
  setting_of ex_entries (txt "archiver0_db") = Some (Text (txt "a=b")) /\
  setting_of ex_entries (txt "shard_count") = None.
Proof.
  split; [|by vm_compute].
  assert (Q : forall c s, existsb (N.eqb c) s = false -> c ∉ s).
  { intros c s H I. apply not_true_iff_false in H. apply H, existsb_exists. exists c.
    split; [by apply elem_of_list_In|apply N.eqb_refl]. }
  unfold ex_entries. repeat (apply Forall_cons; split); try apply Forall_nil; cbn [writable];
    split_and?; try (apply Q; by vm_compute); try done.
Qed.

Notation got x := (match x with Val o => Some o | _ => None end).

Lemma compose_2pc_case : match load1 compose_2pc with
  | Val o => o_twophase o = true /\
      o_sentinel_eps (o_sentinels o) = [(txt "sentinel0", 5555)] /\
      o_ls_eps (o_locking o) = [[(txt "shard0", 6666)]] /\
      o_co_raft (o_coordinators o) = [[(txt "coordinator0", 7778)]] /\
      o_shard_ranges (o_shards o) = [(0, 255)] /\ o_co_threads (o_coordinators o) = 100 /\
      o_threshold (o_sentinels o) = 1
  | _ => False
  end.
Proof. vm_compute. repeat split. Qed.

Lemma compose_atomizer_case : match load1 compose_atomizer with
  | Val o => o_twophase o = false /\
      o_shard_eps (o_shards o) = [(txt "shard0", 6555)] /\ o_shard_dbs (o_shards o) = [txt "shard0"] /\
      o_wt_internal (o_watchtowers o) = [(txt "watchtower0", 8556)] /\
      o_block_interval (o_atomizers o) = 3000 /\ o_wt_blocks (o_watchtowers o) = 50
  | _ => False
  end.
Proof. vm_compute. repeat split. Qed.

(** * A well-formed file *)
Lemma find_elem {D} k (p : parser (D := D)) v : find k p = Some v -> (k, v) ∈ p.
Proof.
  unfold find. intros H. apply fmap_Some in H as ([k' v'] & H & ->). apply List.find_some in H as [H E].
  apply bool_decide_eq_true in E. cbn [fst] in E. subst. by apply elem_of_list_In.
Qed.

Definition good_entry (e : string * value (D := unit)) : bool :=
  match snd e with
  | VStr s => implb (List.last (fst e) 0 =? 116) (match parse_ip_port s with Val _ => true | _ => false end)
              && implb (List.last (fst e) 0 =? 121) (Nat.eqb (length s) 64)
  | VNum n => n <=? 1000000
  | VDbl _ => true
  end.

Lemma last_app_txt a w c : List.last (txt w) 0 = c -> c <> 0 -> List.last (a ++ txt w) 0 = c.
Proof.
  intros H C. induction a as [|x a IH]; [done|]. cbn [app].
  destruct (a ++ txt w) as [|y l] eqn:E; [|cbn [List.last]; by cbn [List.last] in IH].
  exfalso. destruct a; [|done]. cbn [app] in E. rewrite E in H. by subst.
Qed.

Lemma good_well_formed f (p : parser (D := unit)) : init stod1 f = Val p -> forallb good_entry p = true ->
  well_formed stod1 no_env f p.
Proof.
  intros I G. rewrite forallb_forall in G.
  assert (S : forall k s, get_string stod1 no_env p k = Val (Some s) -> (k, VStr s) ∈ p).
  { intros k s H. unfold get_string, find_or_env in H. cbn [obind] in H.
    destruct (find k p) as [[s'| |]|] eqn:E; try discriminate. injection H as ->. by apply find_elem. }
  assert (B : forall k n, get_ulong stod1 no_env p k = Val (Some n) -> n <= vec_max).
  { intros k n H. unfold get_ulong, find_or_env in H. cbn [obind] in H.
    destruct (find k p) as [[|n'|]|] eqn:E; try discriminate. injection H as ->. apply find_elem in E.
    apply elem_of_list_In, G in E. cbn in E. apply N.leb_le in E. unfold vec_max. lia. }
  constructor; [done|done| | |intros n; apply B|intros n; apply B].
  - intros n s _ T. destruct n as [|c i w|c i j w]; [done| |]; intros W; apply S, elem_of_list_In, G in T.
    + cbn [spelled] in T. rewrite !(assoc (++)) in T. unfold good_entry in T. cbn [fst snd] in T.
      rewrite (last_app_txt _ w 116) in T; [|set_unfold in W; by destruct_or! W; subst|done].
      cbn in T. destruct (parse_ip_port s); try discriminate. eauto.
    + cbn [spelled] in T. rewrite !(assoc (++)) in T. unfold good_entry in T. cbn [fst snd] in T.
      rewrite (last_app_txt _ w 116) in T; [|set_unfold in W; by destruct_or! W; subst|done].
      cbn in T. destruct (parse_ip_port s); try discriminate. eauto.
  - intros i w s W T. apply S, elem_of_list_In, G in T.
    cbn [spelled] in T. rewrite !(assoc (++)) in T. unfold good_entry in T. cbn [fst snd] in T.
    rewrite (last_app_txt _ w 121) in T; [|set_unfold in W; by destruct_or! W; subst|done].
    cbn in T. by apply Nat.eqb_eq in T.
Qed.

Lemma compose_well_formed : exists p, well_formed stod1 no_env compose_2pc p.
Proof.
  assert (G : match init stod1 compose_2pc with Val p => forallb good_entry p | _ => false end = true)
    by (vm_compute; reflexivity).
  destruct (init stod1 compose_2pc) as [p| | | |] eqn:E; try discriminate G.
  exists p. exact (good_well_formed compose_2pc p E G).
Qed.

(** * What goes wrong *)
Notation number1 ls k := (p <~ init stod1 (file ls); get_ulong stod1 no_env p (txt k)).
Notation text1 ls k := (p <~ init stod1 (file ls); get_string stod1 no_env p (txt k)).

(** A comment with an equals sign. *)
Lemma comment_case : init stod1 (file ["# a=b"; "2pc=1"]%string) = Threw.
Proof. by vm_compute. Qed.

(** Numbers and texts that are not what they look like. *)
Lemma odd_values_case :
  number1 ["shard_count=-1"]%string "shard_count" = Val (Some 18446744073709551615) /\
  number1 ["shard_count=12abc"]%string "shard_count" = Val (Some 12) /\
  number1 ["shard_count = 2"]%string "shard_count" = Val None /\
  number1 ["shard_count=""2"""]%string "shard_count" = Val None /\
  text1 ["archiver0_db=path"""]%string "archiver0_db" = Val (Some (txt "ath")) /\
  text1 ["archiver0_db=""path"]%string "archiver0_db" = Val (Some (txt "pat")).
Proof. by vm_compute. Qed.

Lemma empty_env_case : get_ulong stod1 (fun k => if bool_decide (k = txt "SHARD_COUNT") then Some [] else None)
  [] (txt "shard_count") = Undefined.
Proof. by vm_compute. Qed.

Lemma odd_endpoints_case :
  parse_ip_port (txt "::1:5555") = Threw /\
  parse_ip_port (txt "localhost") = Assertion /\
  parse_ip_port (txt "localhost:70000") = Assertion.
Proof. by vm_compute. Qed.

(** Accepted, with two shards that leave half of the hashes to nobody, and one
    whose range ends at 256. *)
Definition ex_shards (a b c d : String.string) : string := file [
  "2pc=1"; "sentinel_count=1"; "sentinel0_endpoint=""s:1""";
  "sentinel0_public_key=""eaa649f21f51bdbae7be4ae34ce6e5217a58fdce7f47f9aa7f3b58fa2120e2b3""";
  "coordinator_count=1"; "coordinator0_count=1"; "coordinator0_0_endpoint=""c:1""";
  "coordinator0_0_raft_endpoint=""c:2""";
  "shard_count=2"; append "shard0_start=" a; append "shard0_end=" b; append "shard1_start=" c; append "shard1_end=" d;
  "shard0_count=1"; "shard0_0_endpoint=""h:1"""; "shard0_0_raft_endpoint=""h:2""";
  "shard0_0_readonly_endpoint=""h:3"""; "shard1_count=0"]%string.

Lemma gap_case : match load1 (ex_shards "0" "63" "128" "191") with
  | Val o => o_shard_ranges (o_shards o) = [(0, 63); (128, 191)] /\
      ~ covered o (200 * 2 ^ 248) /\ ~ covered o (64 * 2 ^ 248)
  | _ => False end.
Proof.
  destruct (load1 _) as [o| | | |] eqn:E.
  2-5: exfalso; revert E; by vm_compute.
  assert (R : o_shard_ranges (o_shards o) = [(0, 63); (128, 191)]).
  { assert (Q : omap (fun _ => got (load1 (ex_shards "0" "63" "128" "191"))) [tt] = [o]) by (by rewrite E).
    assert (Q2 : (fun o => o_shard_ranges (o_shards o)) <$> omap (fun _ => got (load1 (ex_shards "0" "63" "128" "191"))) [tt]
      = [[(0, 63); (128, 191)]]) by (by vm_compute).
    rewrite Q in Q2. by injection Q2. }
  split; [done|]. split; intros (r & Hr & I); rewrite R in Hr; set_unfold in Hr; destruct_or! Hr; subst;
    revert I; by vm_compute.
Qed.

Lemma end_256_case : match load1 (ex_shards "0" "256" "128" "255") with
  | Val o => o_shard_ranges (o_shards o) = [(0, 0); (128, 255)]
  | _ => False end.
Proof. by vm_compute. Qed.

(** The second shard of these files has no nodes. *)
Lemma no_nodes_case : match load1 (ex_shards "0" "127" "128" "255") with
  | Val o => o_ls_eps (o_locking o) = [[(txt "h", 1)]; []]
  | _ => False end.
Proof. by vm_compute. Qed.

(** Settings of the wrong kind are ignored. *)
Definition ex_threshold (v : String.string) (k : String.string) : string := file [
  "2pc=1"; append "attestation_threshold=" v;
  "sentinel_count=2"; "sentinel0_endpoint=""s:1"""; "sentinel1_endpoint=""s:2""";
  "sentinel0_public_key=""eaa649f21f51bdbae7be4ae34ce6e5217a58fdce7f47f9aa7f3b58fa2120e2b3""";
  append "sentinel1_public_key=""" (append k """");
  "coordinator_count=1"; "coordinator0_count=1"; "coordinator0_0_endpoint=""c:1""";
  "coordinator0_0_raft_endpoint=""c:2""";
  "shard_count=1"; "shard0_start=0"; "shard0_end=255";
  "shard0_count=1"; "shard0_0_endpoint=""h:1"""; "shard0_0_raft_endpoint=""h:2""";
  "shard0_0_readonly_endpoint=""h:3"""; "election_timeout_upper=2147483648"]%string.

Lemma threshold_case :
  match load1 (ex_threshold "2" ex_key) with
  | Val o => o_threshold (o_sentinels o) = 2 /\ o_election_upper (o_raft o) = (-2147483648)%Z | _ => False end /\
  match load1 (ex_threshold """2""" ex_key) with
  | Val o => o_threshold (o_sentinels o) = 1 | _ => False end /\
  match load1 (ex_threshold "2.0" ex_key) with
  | Val o => o_threshold (o_sentinels o) = 1 | _ => False end.
Proof. vm_compute. repeat split. Qed.

(** Refused: too few different keys, and none at all. *)
Lemma refused_case :
  load1 (ex_threshold "2" "eaa649f21f51bdbae7be4ae34ce6e5217a58fdce7f47f9aa7f3b58fa2120e2b3")
    = Bad (Broken RulePublicKeys) /\
  load1 (file ["2pc=1"]%string) = Bad (Broken RuleSentinel) /\
  load1 (file ["sentinel_count=1"]%string) = Bad (Missing (txt "sentinel0_endpoint")) /\
  load1 (file ["seed_from=0"; "seed_to=10"; "seed_privkey=""00"""]%string) = Bad (Broken RuleSeedKeyLength).
Proof. by vm_compute. Qed.

(** A key of another length. *)
Lemma key_length_case :
  load1 (ex_threshold "1" (append ex_key "00")) = Undefined /\ load1 (ex_threshold "1" "00") = Undefined.
Proof. by vm_compute. Qed.
