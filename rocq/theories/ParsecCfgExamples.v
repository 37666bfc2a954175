(** The command line of the PArSEC programs: concrete cases and counterexamples. *)
From Coq Require Import NArith String Lia.
From stdpp Require Import base option list.
From Verif Require Import Base HexModel ConfigModel ParsecCfgModel ParsecCfgSpec ParsecCfgProofs
  ParsecCfgRound.
Open Scope N_scope.

Notation no_decimals := (fun _ : string => None : option N).
Notation args_of l := (map (fun a : String.string => txt a) l).

(** Two shards, of two nodes and of one. *)
Definition ex_deployment : deployment (D := N) :=
  Deployment 1 (Some 0) (Some LInfo) [(txt "tm", 7000)]
    [[(txt "s-a", 5000); (txt "s-b", 5001)]; [(txt "s-c", 5002)]] [(txt "agent", 6000)]
    None None None (Some Lua).
Notation ex_args := (args_of
  ["--component_id=1"; "--node_id=0"; "--loglevel=INFO"; "--runner_type=lua";
   "--shard1_count=1"; "--shard10_endpoint=s-c:5002"; "--shard0_count=2";
   "--shard00_endpoint=s-a:5000"; "--shard01_endpoint=s-b:5001"; "--shard_count=2";
   "--agent_count=1"; "--agent0_endpoint=agent:6000";
   "--ticket_machine_count=1"; "--ticket_machine0_endpoint=tm:7000"])%string.

Lemma ex_read : read_config no_decimals 0 (txt "agentd" :: ex_args)
  = Val (Some (meaning 0 ex_deployment)).
Proof. vm_compute. reflexivity. Qed.

Ltac there := vm_compute; repeat first [left; reflexivity|right].
Lemma ex_written : written ex_deployment ex_args.
Proof.
  split.
  - intros a H. cbn [map In] in H.
    repeat (destruct H as [<-|H]; [|]); [..|destruct H];
      [exists (Word "component_id"), (txt "1")|exists (Word "node_id"), (txt "0")
      |exists (Word "loglevel"), (txt "INFO")|exists (Word "runner_type"), (txt "lua")
      |exists (ShardSize 1), (txt "1")|exists (ShardNode 1 0), (txt "s-c:5002")
      |exists (ShardSize 0), (txt "2")|exists (ShardNode 0 0), (txt "s-a:5000")
      |exists (ShardNode 0 1), (txt "s-b:5001")|exists (Word "shard_count"), (txt "2")
      |exists (Word "agent_count"), (txt "1")|exists (Agent 0), (txt "agent:6000")
      |exists (Word "ticket_machine_count"), (txt "1")|exists (TicketMachine 0), (txt "tm:7000")];
      (split; [cbn [says]|reflexivity]); try there;
      repeat first [eexists; split; [reflexivity|]|eexists]; reflexivity.
  - intros [w|i|i|i j|i] v; cbn [says].
    + unfold words. cbn [In]. intros H.
      repeat (destruct H as [H|H];
        [apply pair_equal_spec in H as [<- E]; vm_compute in E;
         first [discriminate E|injection E as <-; there]|]). destruct H.
    + destruct (N.to_nat i) as [|k] eqn:E; [|by intros (e & [=] & _)].
      assert (i = 0) by lia. subst i. intros (e & [= <-] & ->). there.
    + destruct (N.to_nat i) as [|[|k]] eqn:E; [| |by intros (e & [=] & _)].
      * assert (i = 0) by lia. subst i. intros (e & [= <-] & ->). there.
      * assert (i = 1) by lia. subst i. intros (e & [= <-] & ->). there.
    + destruct (N.to_nat i) as [|[|k]] eqn:E; [| |by intros (c & e & [=] & _)].
      * assert (i = 0) by lia. subst i. intros (c & e & [= <-] & H & ->).
        destruct (N.to_nat j) as [|[|k]] eqn:E'; [| |discriminate].
        -- assert (j = 0) by lia. subst j. injection H as <-. there.
        -- assert (j = 1) by lia. subst j. injection H as <-. there.
      * assert (i = 1) by lia. subst i. intros (c & e & [= <-] & H & ->).
        destruct (N.to_nat j) as [|k] eqn:E'; [|discriminate].
        assert (j = 0) by lia. subst j. injection H as <-. there.
    + destruct (N.to_nat i) as [|k] eqn:E; [|by intros (e & [=] & _)].
      assert (i = 0) by lia. subst i. intros (e & [= <-] & ->). there.
Qed.

Lemma no_dashes_check t : forallb (fun c => negb (c =? 61)) t && negb (existsb (fun x => x) (zip_with (fun a b => (a =? 45) && (b =? 45)) t (drop 1 t))) = true -> clean t.
Proof.
  intros H. apply andb_true_iff in H as [H1 H2]. apply negb_true_iff in H2. split.
  - intros E. rewrite forallb_forall in H1. apply elem_of_list_In in E. by apply H1 in E.
  - intros (a & b & ->). clear H1. induction a as [|c a IH].
    + discriminate H2.
    + apply IH. clear IH. destruct a as [|c' a]; cbn in H2 |- *; [by apply orb_false_iff in H2 as [_ H2]|].
      apply orb_false_iff in H2 as [_ H2]. exact H2.
Qed.

Definition fits_check (e : endpoint) : bool :=
  forallb (fun c => negb (c =? 58)) e.1 &&
  (forallb (fun c => negb (c =? 61)) e.1 && negb (existsb (fun x => x) (zip_with (fun a b => (a =? 45) && (b =? 45)) e.1 (drop 1 e.1)))) &&
  (e.2 <=? 65535).
Lemma fits_checked l : forallb fits_check l = true -> Forall endpoint_fits l.
Proof.
  induction l as [|e l IH]; [by intros _; apply list.Forall_nil|]. cbn [forallb].
  intros [H1 H2]%andb_true_iff. apply list.Forall_cons. split; [|by apply IH].
  unfold fits_check in H1. apply andb_true_iff in H1 as [H1 H3].
  apply andb_true_iff in H1 as [H0 H1]. split; [|split].
  - intros E. rewrite forallb_forall in H0. apply elem_of_list_In in E. by apply H0 in E.
  - by apply no_dashes_check.
  - by apply N.leb_le.
Qed.
Lemma list_fits_checked l : forallb fits_check l = true -> N.of_nat (length l) <? 2 ^ 64 = true ->
  list_fits l.
Proof. intros H1 H2. split; [by apply N.ltb_lt|by apply fits_checked]. Qed.

Lemma ex_fits : fits no_decimals ex_deployment /\ small_clusters ex_deployment.
Proof.
  split.
  - split; [reflexivity|]. split; [by intros n [= <-]|]. split; [done|]. split; [done|].
    split; [by apply list_fits_checked|]. split; [by apply list_fits_checked|].
    split; [reflexivity|].
    apply list.Forall_cons; split; [by apply list_fits_checked|].
    apply list.Forall_cons; split; [by apply list_fits_checked|]. by apply list.Forall_nil.
  - apply list.Forall_cons; split; [cbn; lia|]. apply list.Forall_cons; split; [cbn; lia|].
    by apply list.Forall_nil.
Qed.

(** Twelve shards; the second one has eleven nodes. *)
Definition big_deployment : deployment (D := N) :=
  Deployment 0 None None []
    ([[]] ++ [repeat (txt "a", 1) 11] ++ repeat [] 9 ++ [[(txt "b", 2)]]) []
    None None None None.

Lemma big_fits : fits no_decimals big_deployment.
Proof.
  split; [reflexivity|]. split; [done|]. split; [done|]. split; [done|].
  split; [by apply list_fits_checked|]. split; [by apply list_fits_checked|].
  split; [reflexivity|].
  repeat (apply list.Forall_cons; split; [by apply list_fits_checked|]). by apply list.Forall_nil.
Qed.

Theorem nodes_refuted : exists d : deployment (D := N), fits no_decimals d /\
  forall p args, read_config no_decimals 0 (p :: args) <> Val (Some (meaning 0 d)).
Proof.
  exists big_deployment. split; [exact big_fits|]. intros p args H.
  assert (E : (txt "a", 1) = (txt "b", 2)).
  { eapply (clash no_decimals 0 p args _ 1 10 11 0); [exact H|reflexivity..]. }
  discriminate E.
Qed.

(** What is ignored. *)
Notation few := ["--component_id=0"; "--ticket_machine_count=0"; "--shard_count=0";
  "--agent_count=0"]%string.
Lemma misspelt_witness :
  (exists c, read_config no_decimals 0 (txt "agentd" :: args_of (few ++ ["--runer_type=lua"%string]))
             = Val (Some c) /\ m_runner_type c = Evm) /\
  (exists c, read_config no_decimals 0 (txt "agentd" :: args_of (few ++ ["--loglevel=warning"%string]))
             = Val (Some c) /\ m_loglevel c = LTrace) /\
  (exists c, read_config no_decimals 0 (txt "agentd" :: args_of few) = Val (Some c) /\
             m_loglevel c = LTrace /\ m_shard_endpoints c = []).
Proof.
  split; [|split]; eexists; (split; [vm_compute; reflexivity|]); vm_compute; auto.
Qed.
Lemma throws_witness :
  read_config no_decimals 0 (args_of ["agentd"; "--component_id=first"]%string) = Threw /\
  read_config no_decimals 0 (args_of ["agentd"; "--component_id=0"; "--ticket_machine_count=1";
    "--ticket_machine0_endpoint=host"]%string) = Assertion.
Proof. vm_compute. auto. Qed.
