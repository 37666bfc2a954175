(** C82: a raft node's vote and its cluster's membership survive. *)
From Verif Require Import Base HexModel.
From Coq Require Import String.
From stdpp Require Import base option list gmap.
From Coq Require Import NArith.
From Verif Require Import ConfigModel RaftFilesModel RaftFilesSpec RaftFilesProofs
  RaftFilesExamples.
Open Scope N_scope.

(** No two nodes use the same file, nor one of them a file for two things. *)
Theorem C82_names k n k' n' :
  (file_name k n = file_name k' n' -> k = k' /\ n = n') /\
  (log_dir n = log_dir n' -> n = n') /\
  tmp_name (file_name k n) <> file_name k' n' /\
  log_dir n <> file_name k' n' /\ log_dir n <> tmp_name (file_name k' n').
Proof.
  exact (conj (file_name_inj k n k' n') (conj (log_dir_inj n n')
    (conj (tmp_not_file k' n' (file_name k n)) (log_dir_not_file n k' n')))).
Qed.
Print Assumptions C82_names.

(** Whatever nodes saved, and wherever their processes died: a node that starts finds the
    state it saved last, or one that it was saving when it died. Reading never throws. *)
Theorem C82_state {C T} (encC : C -> bytes) (encT : T -> bytes) (decT : bytes -> option T)
    (l : list (act C T)) n :
  (forall t, decT (encT t) = Some t) ->
  match read_state decT (run encC encT l) n with
  | Missing => None ∈ possible l KState n
  | Loaded t => Some (OState t) ∈ possible l KState n
  | Threw => False
  end.
Proof. exact (fun rt => state_found encC encT decT rt l n). Qed.
Print Assumptions C82_state.
Theorem C82_config {C T} (encC : C -> bytes) (decC : bytes -> option C) (encT : T -> bytes)
    of_servers (l : list (act C T)) n eps :
  (forall c, decC (encC c) = Some c) ->
  match load_config decC of_servers (run encC encT l) n eps with
  | Missing => False
  | Loaded c => Some (OConfig c) ∈ possible l KConfig n \/
      None ∈ possible l KConfig n /\ c = of_servers (default_servers 0 eps)
  | Threw => False
  end.
Proof. exact (fun rt => config_found encC decC encT rt of_servers l n eps). Qed.
Print Assumptions C82_config.
Example C82_found_example :
  read_state ex_dec (run ex_encC ex_enc ex_acts) ex_node = Loaded (3, Some 7) /\
  possible ex_acts KState ex_node = [Some (OState (4, Some 8)); Some (OState (3, Some 7))] /\
  load_config ex_decC ex_servers (run ex_encC ex_enc ex_acts) ex_node ex_eps = Loaded 2.
Proof. exact found_case. Qed.

(** A save that returned is what is found, whatever other nodes do. *)
Theorem C82_state_survives {C T} (encC : C -> bytes) (encT : T -> bytes)
    (decT : bytes -> option T) (l m : list (act C T)) n t :
  (forall t, decT (encT t) = Some t) -> Forall (elsewhere KState n) m ->
  read_state decT (run encC encT (l ++ ASave n (OState t) :: m)) n = Loaded t.
Proof. exact (fun rt => state_survives encC encT decT rt l m n t). Qed.
Print Assumptions C82_state_survives.
Theorem C82_config_survives {C T} (encC : C -> bytes) (decC : bytes -> option C)
    (encT : T -> bytes) of_servers (l m : list (act C T)) n c eps :
  (forall c, decC (encC c) = Some c) -> Forall (elsewhere KConfig n) m ->
  load_config decC of_servers (run encC encT (l ++ ASave n (OConfig c) :: m)) n eps = Loaded c.
Proof. exact (fun rt => config_survives encC decC encT rt of_servers l m n c eps). Qed.
Print Assumptions C82_config_survives.
Example C82_survives_example : Forall (elsewhere (C := N) KState ex_node)
  [ASave ex_node (OConfig 2); ASave ex_other (OState (9, @None N))].
Proof. exact survives_case. Qed.

(** A node that saves its vote before it answers, and goes on with what it finds after its
    process has died at any point of a save, votes for one candidate in a term. *)
Theorem C82_votes_once (enc : N * option N -> bytes) (dec : bytes -> option (N * option N))
    n l :
  (forall t, dec (enc t) = Some t) ->
  exists v, vote_run enc dec n (Voter ∅ 0 None []) l = Some v /\
    forall t c c', (t, c) ∈ v_votes v -> (t, c') ∈ v_votes v -> c = c'.
Proof. exact (fun rt => votes_once enc dec rt n l). Qed.
Print Assumptions C82_votes_once.
Example C82_votes_example : option_map v_votes (vote_run ex_enc ex_dec ex_node
    (Voter ∅ 0 None [])
    [VAsk 1 5; VAskCrash 2 5 3 0; VAsk 2 6; VAsk 2 5; VAskCrash 3 6 1 1; VAsk 3 5])
  = Some [(1, 5); (2, 5); (3, 5)].
Proof. exact vote_case. Qed.

(** In the first configuration each node finds itself, and only itself, under its own number
    and at the port it listens on; the first one is preferred as leader. *)
Theorem C82_first_config (eps : list (list N * N)) n h p :
  eps !! N.to_nat (n_id n) = Some (h, p) ->
  own_port n eps = Some p /\
  default_servers 0 eps !! N.to_nat (n_id n)
  = Some (server_id n, h ++ txt ":" ++ ConfigModel.dec p, if n_id n =? 0 then 100 else 1) /\
  length (default_servers 0 eps) = length eps /\
  forall j s, default_servers 0 eps !! j = Some s -> fst (fst s) = server_id n ->
    j = N.to_nat (n_id n).
Proof. exact (default_config eps n h p). Qed.
Print Assumptions C82_first_config.
Example C82_first_config_example :
  ex_eps !! N.to_nat (n_id ex_node) = Some (txt "a", 5000) /\
  default_servers 0 ex_eps = [(1, txt "a:5000", 100); (2, txt "b:5001", 1)].
Proof. exact default_case. Qed.

(** ** What does not hold *)
(** No write is checked: when the disk is full the truncated file replaces the good one, and
    the node can not start again. *)
Theorem C82_full_disk_refuted {T} (enc : T -> bytes) (dec : bytes -> option T) (d : disk) n t :
  dec [] = None -> read_state dec (save_full d (file_name KState n) (enc t) 0) n = Threw.
Proof. exact (full_throws enc dec d n t). Qed.
Print Assumptions C82_full_disk_refuted.
(** Nothing is synchronised to the disk: when the machine stops after a save that returned, the
    state may be gone, and the vote that was answered with it. *)
Theorem C82_power_refuted {T} (enc : T -> bytes) (dec : bytes -> option T) (d : disk) n t :
  dec [] = None ->
  read_state dec (lose (save d (file_name KState n) (enc t)) (file_name KState n) 0) n = Threw.
Proof. exact (power_throws enc dec d n t). Qed.
Print Assumptions C82_power_refuted.
Example C82_full_example : ex_dec [] = None.
Proof. exact full_case. Qed.
(** Once a configuration was saved, the endpoints in the options are not looked at. *)
Theorem C82_options_refuted : exists l n eps,
  ex_servers (default_servers 0 eps) = 3 /\
  load_config ex_decC ex_servers (run ex_encC ex_enc l) n eps = Loaded 2.
Proof. exact options_case. Qed.
Print Assumptions C82_options_refuted.
