(** Property C97: the source of random numbers gives every one of its users a stream that is
    determined by its seed; different seeds give different streams unless the hash function has
    a collision; but the stream is no secret: eight numbers tell all that follow.

    [transform] is the compression function of SHA-256 in whichever implementation is chosen when
    the program starts; [proper] says that it makes eight words of 32 bits. *)
From Coq Require Import NArith List Bool.
From stdpp Require Import base option list.
From Verif Require Import Base RandModel RandSpec RandProofs RandExamples ShaModel.
Import ListNotations.
Open Scope N_scope.

(** A source opened on a file of at least 32 bytes gives the words of the chain, in order, for
    any number of calls. *)
Theorem C97_stream transform initial : proper transform initial ->
  forall file checked m, (32 <= length file)%nat ->
  exists r, open_source transform initial checked (Some file) = Some r /\
    fst (draws transform m r) = map (number transform initial (firstn 32 file)) (seq 0 m).
Proof. exact (stream transform initial). Qed.
Print Assumptions C97_stream.

(** Two sources whose seeds differ differ within eight numbers, or the two blocks made of
    the seeds are different and have the same hash. *)
Theorem C97_seeds transform initial : proper transform initial ->
  forall fa fb ca cb ra rb,
  (32 <= length fa)%nat -> (32 <= length fb)%nat -> firstn 32 fa <> firstn 32 fb ->
  open_source transform initial ca (Some fa) = Some ra ->
  open_source transform initial cb (Some fb) = Some rb ->
  fst (draws transform 8 ra) <> fst (draws transform 8 rb) \/
  (first_block (firstn 32 fa) <> first_block (firstn 32 fb) /\
   transform initial (first_block (firstn 32 fa)) = transform initial (first_block (firstn 32 fb))).
Proof. exact (seeds_differ transform initial). Qed.
Print Assumptions C97_seeds.

(** Nobody who sees numbers can tell the next ones: false, for every seed and at every block.
    The guess uses the eight numbers seen and the position only. *)
Theorem C97_secret_refuted transform initial : proper transform initial ->
  forall file checked r n m, (32 <= length file)%nat ->
  open_source transform initial checked (Some file) = Some r -> (8 * n + 16 <= m)%nat ->
  guess transform n (take 8 (drop (8 * n) (fst (draws transform m r)))) =
  take 8 (drop (8 * n + 8) (fst (draws transform m r))).
Proof. exact (guess_draws transform initial). Qed.
Print Assumptions C97_secret_refuted.

(** random_hash takes the upper byte of 32 numbers each time, none of them twice. *)
Theorem C97_hashes transform initial : proper transform initial ->
  forall file checked m, (32 <= length file)%nat ->
  exists r, open_source transform initial checked (Some file) = Some r /\
    fst (random_hashes transform m r) =
    map (fun i => map (fun x => number transform initial (firstn 32 file) x / 2 ^ 24) (seq (32 * i) 32))
        (seq 0 m).
Proof. exact (hashes_drawn transform initial). Qed.
Print Assumptions C97_hashes.

Theorem C97_hash_bytes transform initial : proper transform initial ->
  forall file checked m h r, (32 <= length file)%nat ->
  open_source transform initial checked (Some file) = Some r ->
  h ∈ fst (random_hashes transform m r) -> length h = 32%nat /\ Forall is_byte h.
Proof. exact (hash_bytes transform initial). Qed.
Print Assumptions C97_hash_bytes.

(** A file that cannot be opened, or is too short: the program stops, if assertions are compiled
    in; if not, it goes on as if the file ended in zeros. *)
Theorem C97_unreadable transform initial file :
  match file with Some b => length b < 32 | None => True end%nat ->
  open_source transform initial true file = None /\
  open_source transform initial false file =
    open_source transform initial false
      (Some (default [] file ++ repeat 0 (32 - length (default [] file)))).
Proof. exact (unreadable transform initial file). Qed.
Print Assumptions C97_unreadable.

(** ** The hypotheses are met *)

Example C97_example_proper : proper transform initial.
Proof. exact sha_proper. Qed.
Example C97_example_numbers :
  nums 9 = Some [3265416580; 4100051298; 3469013745; 2862878661; 2000371616; 773541144;
                 2063213322; 3831129817; 2117230874].
Proof. vm_compute. reflexivity. Qed.
Example C97_example_guess :
  guess transform 0 [3265416580; 4100051298; 3469013745; 2862878661; 2000371616; 773541144;
                     2063213322; 3831129817] =
  [2117230874; 2556280866; 469555405; 3077002711; 675589321; 3929969507; 1123482289; 1915179158].
Proof. vm_compute. reflexivity. Qed.
(** Two processes with no entropy source agree on every number. *)
Example C97_example_same :
  open_source transform initial false None = open_source transform initial false (Some []) /\
  option_map (fun r => fst (draws transform 2 r)) (open_source transform initial false None) =
    Some [500053036; 2357410802].
Proof. vm_compute. split; reflexivity. Qed.
