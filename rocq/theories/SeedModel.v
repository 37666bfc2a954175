(** Pre-seeded money: tools/shard-seeder/shard-seeder.cpp, the preseeding half of the
    locking shard and of the load generators in tools/bench. *)
From Coq Require Import NArith ZArith Ascii String.
From stdpp Require Import base decidable option list gmap.
From Verif Require Import Base CodecModel TxModel ValidationModel WalletModel HexModel ConfigModel.
Open Scope N_scope.

Section Seed.
  Context {D : Type}.
  Variable sha : bytes -> hash.
  Variable pub_of : N -> N.
  Implicit Types (o : options (D := D)).

  (** num_shards, shard-seeder.cpp:54-58: the number of different ranges. *)
  Definition seed_shards o : N := N.of_nat (length (remove_dups (o_shard_ranges (o_shards o)))).
  (** num_utxos, shard-seeder.cpp:59. *)
  Definition seed_count o : N := sub64 (o_seed_to (o_shards o)) (o_seed_from (o_shards o)).
  (** [size_t] passed as [uint32_t value], wallet.hpp. *)
  Definition seed_amount o : N := o_seed_value (o_shards o) mod 2 ^ 32.
  (** m_seed_privkey.value(), a key as a number. *)
  Definition seed_key o : option N := be_value <$> o_seed_priv (o_shards o).

  (** shard_start and shard_end, shard-seeder.cpp:77-91, of one of [n] shards ([n] is not
      zero). *)
  Definition seeder_range (n i : N) : N * N :=
    let w := 256 / n in
    (mul64 i w, if i =? n - 1 then 255 else sub64 (mul64 (add64 i 1) w) 1).

  (** The wallet of shard-seeder.cpp:69-75. *)
  Definition seeder_wallet o (sk : N) : wallet :=
    seed_readonly w_empty (commit_of sha (pub_of sk)) (seed_amount o) 0 (seed_count o).

  (** The hashes written for the [i]th shard, shard-seeder.cpp:126-152 (keys of a LevelDB
      database) and 161-174 (a file): the first output of every seed transaction that falls
      into the shard's range. *)
  Definition seeded_hash (w : wallet) (k : N) : hash :=
    nth 0 (ctx_outputs (to_compact sha (seeded_tx w k))) 0.
  Definition seeder_hashes o (sk i : N) : list hash :=
    List.filter (in_range (seeder_range (seed_shards o) i))
      (map (fun k : nat => seeded_hash (seeder_wallet o sk) (N.of_nat k)) (seq 0 (N.to_nat (seed_count o)))).

  (** The file names, shard-seeder.cpp:93-98 and locking_shard/controller.cpp:25-31. *)
  Definition preseed_name (twophase : bool) (count i : N) : string :=
    (if twophase then txt "2pc_" else []) ++ txt "shard_preseed_" ++ dec count ++ txt "_" ++ dec i.

  (** The whole program after its options were loaded: the files of a two-phase
      system, by name, or what else happens. No shards at all: division by zero.
      The number of hashes is written first, as 0, and again at the end over it. *)
  Definition shard_seeder o : outcome (list (string * bytes)) :=
    match seed_key o with
    | None => Val []
    | Some sk =>
        if seed_shards o =? 0 then Undefined
        else Val (map (fun i : nat =>
               (preseed_name (o_twophase o) (seed_count o) (N.of_nat i),
                enc (c_uset c_hash) (seeder_hashes o sk (N.of_nat i))))
             (seq 0 (N.to_nat (seed_shards o))))
    end.

  (** locking_shard::read_preseed_file, locking_shard.cpp:56-76, with the name chosen by
      controller::controller, controller.cpp:25-31: the shard's unspent set when it starts.
      A file that does not exist is logged and leaves the set empty. *)
  Definition shard_preseed o (files : list (string * bytes)) (id : N) : option (list hash) :=
    if o_seed_from (o_shards o) =? o_seed_to (o_shards o) then Some []
    else match List.find (fun f : string * bytes =>
                 bool_decide (f.1 = preseed_name true (seed_count o) id)) files with
         | None => Some []
         | Some f => match CodecModel.dec (c_uset c_hash) (Dst f.2 true) with
                     | Ok l _ => Some l
                     | _ => None
                     end
         end.

  (** A load generator's wallet, twophase_gen.cpp:48-65 and
      atomizer-cli-watchtower.cpp:127-145. [None]: the program exits with "Initial seed
      failed". *)
  Definition generator_wallet o (gen_id : N) : outcome (option wallet) :=
    if o_seed_from (o_shards o) =? o_seed_to (o_shards o) then Val (Some w_empty)
    else
      '(a, b) <~ loadgen_seed_range o gen_id;
      match seed_key o with
      | None => Threw
      | Some sk =>
          let '(w, ok) := seed sha pub_of w_empty sk (seed_amount o) a b in
          Val (if ok then Some w else None)
      end.
End Seed.
