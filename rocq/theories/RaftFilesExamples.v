From Verif Require Import Base HexModel.
From Coq Require Import String.
From stdpp Require Import base option list gmap.
From Coq Require Import NArith.
From Verif Require Import ConfigModel ConfigText RaftFilesModel RaftFilesSpec RaftFilesProofs.
Open Scope N_scope.

(** A state is a term and a vote; a configuration is known by its number of servers. *)
Definition ex_enc (t : N * option N) : bytes :=
  match snd t with None => [fst t] | Some c => [fst t; c] end.
Definition ex_dec (b : bytes) : option (N * option N) :=
  match b with [t] => Some (t, None) | [t; c] => Some (t, Some c) | _ => None end.
Definition ex_encC (c : N) : bytes := [c].
Definition ex_decC (b : bytes) : option N := match b with [c] => Some c | _ => None end.
Definition ex_servers (l : list (N * list N * N)) : N := N.of_nat (List.length l).
Lemma ex_rt t : ex_dec (ex_enc t) = Some t.
Proof. by destruct t as [t [c|]]. Qed.
Lemma ex_rtC c : ex_decC (ex_encC c) = Some c.
Proof. done. Qed.

Definition ex_node : node := Node (txt "shard1") 0.
Definition ex_other : node := Node (txt "shard") 10.
Definition ex_eps : list (list N * N) := [(txt "a", 5000); (txt "b", 5001)].
Definition ex_eps3 : list (list N * N) := [(txt "a", 5000); (txt "b", 5001); (txt "c", 5002)].
Notation ex_acts := [ASave ex_node (OState (3, Some 7)); ASave ex_node (OConfig 2);
                     ASave ex_other (OState (9, None));
                     ACrash ex_node (OState (4, Some 8)) 1 1].
Lemma found_case :
  read_state ex_dec (run ex_encC ex_enc ex_acts) ex_node = Loaded (3, Some 7) /\
  possible ex_acts KState ex_node = [Some (OState (4, Some 8)); Some (OState (3, Some 7))] /\
  load_config ex_decC ex_servers (run ex_encC ex_enc ex_acts) ex_node ex_eps = Loaded 2.
Proof. vm_compute. done. Qed.
Lemma survives_case : Forall (elsewhere KState ex_node)
  [ASave ex_node (OConfig 2); ASave ex_other (OState (9, @None N))].
Proof.
  apply List.Forall_cons; [|apply List.Forall_cons; [|apply List.Forall_nil]].
  - by intros [_ ?].
  - by intros [? _].
Qed.
(** Two candidates ask in one term; the process dies after it has put its vote for the first
    in place but before it answers. *)
Lemma vote_case : option_map v_votes (vote_run ex_enc ex_dec ex_node (Voter ∅ 0 None [])
    [VAsk 1 5; VAskCrash 2 5 3 0; VAsk 2 6; VAsk 2 5; VAskCrash 3 6 1 1; VAsk 3 5])
  = Some [(1, 5); (2, 5); (3, 5)].
Proof. vm_compute. reflexivity. Qed.
Lemma default_case : ex_eps !! N.to_nat (n_id ex_node) = Some (txt "a", 5000) /\
  default_servers 0 ex_eps = [(1, txt "a:5000", 100); (2, txt "b:5001", 1)].
Proof. vm_compute. done. Qed.

Lemma full_throws {T} (enc : T -> bytes) (dec : bytes -> option T) (d : disk) n t :
  dec [] = None -> read_state dec (save_full d (file_name KState n) (enc t) 0) n = Threw.
Proof.
  intros H. unfold read_state.
  assert (L : save_full d (file_name KState n) (enc t) 0 !! file_name KState n = Some []).
  { unfold save_full. cbn [fold_left fs_do take]. rewrite lookup_insert.
    rewrite lookup_insert. by rewrite lookup_insert. }
  rewrite (load_of _ _ _ _ L). by rewrite H.
Qed.
Lemma power_throws {T} (enc : T -> bytes) (dec : bytes -> option T) (d : disk) n t :
  dec [] = None ->
  read_state dec (lose (save d (file_name KState n) (enc t)) (file_name KState n) 0) n = Threw.
Proof.
  intros H. unfold read_state.
  assert (L : lose (save d (file_name KState n) (enc t)) (file_name KState n) 0
              !! file_name KState n = Some []).
  { unfold lose. etransitivity; [apply lookup_alter|].
    rewrite save_lookup by (intros E; by apply (tmp_not_file KState n (file_name KState n))).
    by rewrite decide_True by reflexivity. }
  rewrite (load_of _ _ _ _ L). by rewrite H.
Qed.
Lemma full_case : ex_dec [] = None.
Proof. reflexivity. Qed.
Lemma options_case : exists l n eps,
  ex_servers (default_servers 0 eps) = 3 /\
  load_config ex_decC ex_servers (run ex_encC ex_enc l) n eps = Loaded 2.
Proof. exists [ASave ex_node (OConfig 2)], ex_node, ex_eps3. by vm_compute. Qed.
