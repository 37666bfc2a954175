(** Model of what a raft node keeps in files besides its log: util/raft/state_manager.cpp, with
    the names that util/raft/node.cpp:9-36 gives the files.

    Simplifications, valid for the whole file:
    - NuRaft's srv_state and cluster_config are not part of the repository: how they are
      written and read back is a parameter, reading back may throw;
    - the file system is a map from names to contents. The steps of a save are atomic except
      for the write, of which a process that dies may have done any part. What happens to
      files in a crash of the machine is in [lose]: no step of a save asks for the data to
      reach the disk (no fsync: std::ofstream::flush hands the data to the kernel);
    - the process of one node saves one object at a time (NuRaft calls save_state and
      save_config under its lock). *)
From Verif Require Import Base HexModel.
From Coq Require Import String.
From stdpp Require Import base option list gmap.
From Coq Require Import NArith.
From Verif Require Import ConfigModel.
Open Scope N_scope.

(** A raft node: the type string of the cluster and the node's number in it, node.cpp:9-12. *)
Record node := Node { n_type : HexModel.string; n_id : N }.
#[global] Instance node_eq : EqDecision node.
Proof. solve_decision. Defined.

Inductive kind := KConfig | KState.
#[global] Instance kind_eq : EqDecision kind.
Proof. solve_decision. Defined.

(** The names of the files, node.cpp:21-26. *)
Definition middle (k : kind) : HexModel.string :=
  match k with KConfig => txt "_raft_config_" | KState => txt "_raft_state_" end.
Definition file_name (k : kind) (n : node) : HexModel.string :=
  n_type n ++ middle k ++ ConfigModel.dec (n_id n) ++ txt ".dat".
Definition log_dir (n : node) : HexModel.string :=
  n_type n ++ txt "_raft_log_" ++ ConfigModel.dec (n_id n).
(** state_manager.cpp:34. *)
Definition tmp_name (f : HexModel.string) : HexModel.string := f ++ txt ".tmp".

Notation disk := (gmap (list N) bytes).

(** The steps of save_object, state_manager.cpp:29-45. *)
Inductive fs_step :=
| FTruncate (f : list N)              (* the std::ofstream opens the file *)
| FWrite (f : list N) (b : bytes)     (* write, flush and close *)
| FRename (f g : list N).
Definition fs_do (d : disk) (s : fs_step) : disk :=
  match s with
  | FTruncate f => <[f := []]> d
  | FWrite f b => <[f := default [] (d !! f) ++ b]> d
  | FRename f g =>
      match d !! f with Some b => <[g := b]> (delete f d) | None => d end
  end.
Definition save_steps (f : list N) (b : bytes) : list fs_step :=
  [FTruncate (tmp_name f); FWrite (tmp_name f) b; FRename (tmp_name f) f].

(** A save that is carried out. *)
Definition save (d : disk) (f : list N) (b : bytes) : disk :=
  fold_left fs_do (save_steps f b) d.
(** The process dies after [steps] steps; if the next one is the write, [part] bytes of it are
    done. *)
Definition save_until (d : disk) (f : list N) (b : bytes) (steps part : nat) : disk :=
  let d' := fold_left fs_do (take steps (save_steps f b)) d in
  match drop steps (save_steps f b) with
  | FWrite g c :: _ => fs_do d' (FWrite g (take part c))
  | _ => d'
  end.
(** The disk takes only [part] bytes: neither write nor flush nor close is checked
    (state_manager.cpp:38-41), and the rename takes place. *)
Definition save_full (d : disk) (f : list N) (b : bytes) (part : nat) : disk :=
  fold_left fs_do [FTruncate (tmp_name f); FWrite (tmp_name f) (take part b);
                   FRename (tmp_name f) f] d.
(** The machine stops: of a file, only the first [part] bytes had reached the disk. *)
Definition lose (d : disk) (f : list N) (part : nat) : disk := alter (take part) f d.

Section objects.
Context {C T : Type}.                       (* cluster_config, srv_state *)
Context (encC : C -> bytes) (decC : bytes -> option C).
Context (encT : T -> bytes) (decT : bytes -> option T).

Inductive object := OConfig (c : C) | OState (t : T).
Definition kind_of (o : object) : kind :=
  match o with OConfig _ => KConfig | OState _ => KState end.
Definition encode (o : object) : bytes :=
  match o with OConfig c => encC c | OState t => encT t end.

(** load_object, state_manager.cpp:47-65: no object without a file; deserialising bytes that
    are no object throws, which ends the node. *)
Inductive loaded (A : Type) := Missing | Loaded (a : A) | Threw.
Arguments Missing {A}.
Arguments Loaded {A} a.
Arguments Threw {A}.
Definition load_object {A} (dec : bytes -> option A) (d : disk) (f : list N) : loaded A :=
  match d !! f with
  | None => Missing
  | Some b => match dec b with Some a => Loaded a | None => Threw end
  end.

(** read_state, state_manager.cpp:98-101. *)
Definition read_state (d : disk) (n : node) : loaded T :=
  load_object decT d (file_name KState n).

(** Endpoints, and the servers of a cluster configuration: number, address, priority. *)
Notation endpoint := (list N * N)%type.
Notation server := (N * list N * N)%type.
(** The loop of load_config, state_manager.cpp:71-83. [i]: the index of the first endpoint. The
    priority of other servers is NuRaft's default, 1. *)
Fixpoint default_servers (i : N) (eps : list endpoint) : list server :=
  match eps with
  | [] => []
  | (host, port) :: r =>
      (i + 1, host ++ txt ":" ++ ConfigModel.dec port, if i =? 0 then 100 else 1)
      :: default_servers (i + 1) r
  end.
(** load_config, state_manager.cpp:67-88; [of_servers] makes a cluster configuration. *)
Context (of_servers : list server -> C).
Definition load_config (d : disk) (n : node) (eps : list endpoint) : loaded C :=
  match load_object decC d (file_name KConfig n) with
  | Missing => Loaded (of_servers (default_servers 0 eps))
  | x => x
  end.

(** The number of the server in the cluster, node.cpp:22, and its port, node.cpp:19. *)
Definition server_id (n : node) : N := n_id n + 1.
Definition own_port (n : node) (eps : list endpoint) : option N :=
  snd <$> eps !! N.to_nat (n_id n).

(** save_config and save_state, state_manager.cpp:90-96, by any node whose files are in the
    same directory. *)
Inductive act :=
| ASave (n : node) (o : object)
| ACrash (n : node) (o : object) (steps part : nat).    (* the process dies while saving *)
Definition act_do (d : disk) (a : act) : disk :=
  match a with
  | ASave n o => save d (file_name (kind_of o) n) (encode o)
  | ACrash n o steps part => save_until d (file_name (kind_of o) n) (encode o) steps part
  end.
Definition run (l : list act) : disk := fold_left act_do l ∅.
End objects.
Arguments Missing {A}.
Arguments Loaded {A} a.
Arguments Threw {A}.
Arguments object C T : clear implicits.
Arguments act C T : clear implicits.
