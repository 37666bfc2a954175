(** Snapshots of the atomizer's state machine: src/uhs/atomizer/atomizer/
    {state_machine,atomizer,format}.cpp.

    The snapshot directory survives a crash of the process. A crash of the machine, where
    a rename could survive and the data written before it not, is not modelled (the code
    flushes the stream but does not fsync). File operations that do not crash succeed (the
    code exits otherwise). *)
From Coq Require Import NArith List Bool.
From stdpp Require Import base decidable list gmap.
From Verif Require Import Base CodecModel TxModel MsgModel AtomizerModel.
Import ListNotations.
Open Scope N_scope.

(** ** The contents of a snapshot file *)

(** atomizer::serialize and deserialize, atomizer.cpp:174-193: depth, height, complete
    transactions, spent IDs, pending transactions. A pending map is read back by comparing
    whole keys instead of IDs; replicas have no pending transactions, since only
    insert_complete is called (state_machine.cpp:54-64). *)
Definition c_atomizer : codec atomizer :=
  c_iso (fun p => Atomizer (snd p) (snd (fst (fst p))) (snd (fst p)) (snd (fst (fst (fst p))))
                    (fst (fst (fst (fst p)))))
        (fun a => (at_depth a, at_height a, at_complete a, at_spent a, at_txs a))
    (c_pair (c_pair (c_pair (c_pair c_u64 c_u64) (c_vec c_compact_tx)) (c_vec (c_uset c_hash)))
            (c_vec (c_map c_compact_tx (c_uset c_u32)))).

(** operator<< and operator>> of state_machine::snapshot, format.cpp:24-47: the size and
    the bytes of NuRaft's description, the atomizer, the blocks. *)
Definition c_snapshot : codec (bytes * sm) :=
  c_iso (fun p => (fst (fst p), Sm (snd (fst p)) (snd p)))
        (fun q => (fst q, sm_at (snd q), sm_blocks (snd q)))
    (c_pair (c_pair c_buffer c_atomizer) (c_map c_u64 c_block)).

(** ** The snapshot directory *)

(** The file "tmp" and the files whose names are log indices. *)
Record snpdir := SnpDir { sd_tmp : option bytes; sd_files : list (N * bytes) }.
Definition snpdir_new : snpdir := SnpDir None [].

Definition sd_read (d : snpdir) (i : N) : option bytes :=
  snd <$> List.find (fun p => fst p =? i) (sd_files d).

(** rename(tmp, idx) replaces an existing file of that name. *)
Definition sd_rename (d : snpdir) (i : N) (data : bytes) : snpdir :=
  SnpDir None ((i, data) :: List.filter (fun p => negb (fst p =? i)) (sd_files d)).

(** How far a snapshot writer got when the process died: nothing done; [n] bytes of the
    data are in tmp (the stream may flush at any point); renamed, and the files [gone] with
    smaller indices are removed; finished. *)
Inductive snp_point :=
| PNothing
| PWritten (n : nat)
| PRenamed (gone : list N)
| PFinished.

(** create_snapshot, state_machine.cpp:211-264. *)
Definition write_snapshot (d : snpdir) (i : N) (data : bytes) (p : snp_point) : snpdir :=
  match p with
  | PNothing => d
  | PWritten n => SnpDir (Some (firstn n data)) (sd_files d)
  | PRenamed gone =>
      let d' := sd_rename d i data in
      SnpDir (sd_tmp d')
        (List.filter (fun q => negb ((fst q <? i) && bool_decide (fst q ∈ gone))) (sd_files d'))
  | PFinished =>
      let d' := sd_rename d i data in
      SnpDir None (List.filter (fun q => negb (fst q <? i)) (sd_files d'))
  end.

(** save_logical_snp_obj, state_machine.cpp:150-187: no file is removed. *)
Definition save_snapshot (d : snpdir) (i : N) (data : bytes) (p : snp_point) : snpdir :=
  match p with
  | PNothing => d
  | PWritten n => SnpDir (Some (firstn n data)) (sd_files d)
  | PRenamed _ | PFinished => sd_rename d i data
  end.

(** NuRaft's snapshot::serialize and deserialize: only the log index matters. *)
Section replicas.
Context (meta_enc : N -> bytes) (meta_dec : bytes -> N).

(** [SnExit]: std::exit, or a crash while reading. *)
Inductive snread :=
| SnNone
| SnOk (meta : N) (s : sm)
| SnExit.

Definition max_index (d : snpdir) : N := fold_left (fun m p => if m <? fst p then fst p else m) (sd_files d) 0.

Definition decode_snapshot (data : bytes) : snread :=
  match dec c_snapshot (Dst data true) with
  | Ok (m, s) (Dst _ true) => SnOk (meta_dec m) s
  | _ => SnExit
  end.

(** read_snapshot, state_machine.cpp:278-332. *)
Definition read_snapshot (d : snpdir) (idx : N) : snread :=
  if idx =? 0 then
    if max_index d =? 0 then SnNone
    else match sd_read d (max_index d) with
         | Some data => decode_snapshot data
         | None => SnExit
         end
  else match sd_read d idx with
       | Some data => decode_snapshot data
       | None => SnNone
       end.

(** The constructor, state_machine.cpp:22-40, with last_snapshot and apply_snapshot
    (189-205): the state and the index of the last log entry it contains. *)
Definition sm_start (depth : N) (d : snpdir) : option (sm * N) :=
  match read_snapshot d 0 with
  | SnNone => Some (sm_new depth, 0)
  | SnExit => None
  | SnOk i _ =>
      match read_snapshot d i with
      | SnOk _ s => Some (s, i)
      | _ => None
      end
  end.

(** ** Replicas of one log

    Entry number i (from 1) is a request or a configuration (commit_config,
    state_machine.cpp:103-108). The log is what NuRaft committed; it only grows. *)
Record replica := Replica { rp_sm : sm; rp_idx : N; rp_dir : snpdir }.
Record world := World {
  w_log : list (option sm_request);
  w_reps : list replica;
  w_answers : list (nat * N * option sm_response) }.

Definition world_new (depth : N) (n : nat) : world :=
  World [] (repeat (Replica (sm_new depth) 0 snpdir_new) n) [].

Inductive wlabel :=
| WAppend (e : option sm_request)
| WApply (j : nat)                        (* replica j commits its next entry *)
| WSnapshot (j : nat) (p : snp_point)     (* creates a snapshot; crashes unless PFinished *)
| WInstall (j k : nat) (i : N) (p : snp_point) (* receives replica k's snapshot i *)
| WCrash (j : nat).

Inductive wresult :=
| WOk (w : world)
| WNo
| WExit.

Definition with_rep (w : world) (j : nat) (r : replica) : world :=
  World (w_log w) (<[j := r]> (w_reps w)) (w_answers w).

(** The process is started again with what the directory holds. *)
Definition restart (depth : N) (w : world) (j : nat) (d : snpdir) : wresult :=
  match sm_start depth d with
  | Some (s, i) => WOk (with_rep w j (Replica s i d))
  | None => WExit
  end.

Definition wstep (depth : N) (w : world) (l : wlabel) : wresult :=
  match l with
  | WAppend e => WOk (World (w_log w ++ [e]) (w_reps w) (w_answers w))
  | WApply j =>
      match w_reps w !! j with
      | Some r =>
          match w_log w !! N.to_nat (rp_idx r) with
          | Some None => WOk (with_rep w j (Replica (rp_sm r) (rp_idx r + 1) (rp_dir r)))
          | Some (Some q) =>
              match sm_commit (rp_sm r) q with
              | ADone (s, x) =>
                  WOk (World (w_log w) (<[j := Replica s (rp_idx r + 1) (rp_dir r)]> (w_reps w))
                         (w_answers w ++ [(j, rp_idx r, x)]))
              | _ => WExit
              end
          | None => WNo
          end
      | None => WNo
      end
  | WSnapshot j p =>
      match w_reps w !! j with
      | Some r =>
          if rp_idx r =? 0 then WNo else
          let d := write_snapshot (rp_dir r) (rp_idx r) (enc c_snapshot (meta_enc (rp_idx r), rp_sm r)) p in
          match p with
          | PFinished => WOk (with_rep w j (Replica (rp_sm r) (rp_idx r) d))
          | _ => restart depth w j d
          end
      | None => WNo
      end
  | WInstall j k i p =>
      match w_reps w !! j, w_reps w !! k with
      | Some r, Some r2 =>
          match sd_read (rp_dir r2) i with
          | Some data =>
              let d := save_snapshot (rp_dir r) i data p in
              match p with
              | PFinished =>
                  (* apply_snapshot, state_machine.cpp:189-197 *)
                  match read_snapshot d i with
                  | SnOk _ s => WOk (with_rep w j (Replica s i d))
                  | _ => WExit
                  end
              | _ => restart depth w j d
              end
          | None => WNo
          end
      | _, _ => WNo
      end
  | WCrash j =>
      match w_reps w !! j with
      | Some r => restart depth w j (rp_dir r)
      | None => WNo
      end
  end.

Fixpoint wrun (depth : N) (w : world) (ls : list wlabel) : wresult :=
  match ls with
  | [] => WOk w
  | l :: r => match wstep depth w l with WOk w' => wrun depth w' r | x => x end
  end.
End replicas.
