(** Proofs about configuration files: reading well-formed options ends in options or in a
    refusal. *)
From Coq Require Import NArith ZArith Ascii String Lia.
From stdpp Require Import base option list sets.
From Verif Require Import Base HexModel ConfigModel ConfigSpec ConfigText ConfigProofs ConfigOptions ConfigCheck.
Open Scope N_scope.

Definition fine {A} (m : outcome A) : Prop :=
  match m with Val _ | Bad _ => True | _ => False end.

Lemma fine_bind {A B} (m : outcome A) (f : A -> outcome B) :
  fine m -> (forall a, m = Val a -> fine (f a)) -> fine (obind m f).
Proof. destruct m; cbn [fine obind]; try done. intros _ H. by apply H. Qed.

Lemma fine_each {A} (f : N -> outcome A) n i : (forall j, fine (f j)) -> fine (each f n i).
Proof.
  intros H. revert i. induction n as [|n IH]; intros i; [done|]. cbn [each].
  apply fine_bind; [apply H|]. intros a _. apply fine_bind; [apply IH|]. by intros.
Qed.
Lemma fine_upto {A} (f : N -> outcome A) n : (forall j, fine (f j)) -> fine (upto n f).
Proof. apply fine_each. Qed.

Lemma hash_loop_length s : (length (hash_loop s) = (length s + 1) / 2)%nat.
Proof.
  revert s. fix IH 1. intros [|a [|b s]]; [done|done|].
  cbn [hash_loop length]. rewrite IH.
  replace (S (S (length s)) + 1)%nat with ((length s + 1) + 1 * 2)%nat by lia.
  rewrite Nat.div_add by done. lia.
Qed.
Lemma key_64 s : length s = 64%nat -> fine (key_of_hex s).
Proof.
  intros L. unfold key_of_hex, hash_from_hex. by rewrite hash_loop_length, L.
Qed.

Section Total.
Context {D : Type} (stod : string -> option D) (zero one : D).
Context (env : string -> option string).
Context (file : string) (p : parser (D := D)).
Context (W : well_formed stod env file p).

Lemma fine_find k : fine (find_or_env stod env p k).
Proof.
  unfold find_or_env. destruct (env (upper k)) as [v|] eqn:E; [|done].
  destruct (w_env _ _ _ _ W _ _ E) as [x Hx]. by rewrite Hx.
Qed.
Lemma fine_string k : fine (get_string stod env p k).
Proof. apply fine_bind; [apply fine_find|]. by intros. Qed.
Lemma fine_ulong k : fine (get_ulong stod env p k).
Proof. apply fine_bind; [apply fine_find|]. by intros. Qed.
Lemma fine_decimal k : fine (get_decimal stod env p k).
Proof. apply fine_bind; [apply fine_find|]. by intros. Qed.
Lemma fine_ulong_or k d : fine (ulong_or stod env p k d).
Proof. apply fine_bind; [apply fine_ulong|]. by intros. Qed.
Lemma fine_decimal_or k d : fine (value_or d (get_decimal stod env p k)).
Proof. apply fine_bind; [apply fine_decimal|]. by intros. Qed.
Lemma fine_log k : fine (loglevel stod env p k).
Proof. apply fine_bind; [apply fine_string|]. by intros. Qed.
Lemma fine_required {A} k (m : outcome (option A)) : fine m -> fine (required k m).
Proof. intros H. apply fine_bind; [done|]. by intros [a|]. Qed.
Lemma fine_endpoint k n : k = spelled n -> known n ->
  match n with
  | Of _ _ w | OfNode _ _ _ w =>
      w ∈ ["endpoint"; "raft_endpoint"; "readonly_endpoint"; "client_endpoint"; "internal_endpoint"]%string
  | Plain _ => False
  end -> fine (required k (get_endpoint stod env p k)).
Proof.
  intros -> K E. apply fine_required. unfold get_endpoint. apply fine_bind; [apply fine_string|].
  intros [s|] Hs; [|done]. pose proof (w_endpoint _ _ _ _ W n s K Hs) as Q.
  destruct n; [done| |]; destruct (Q E) as [e He]; by rewrite He.
Qed.
Lemma fine_key i w : w ∈ ["private_key"; "public_key"]%string -> forall s,
  get_string stod env p (spelled (Of "sentinel" i w)) = Val (Some s) -> fine (key_of_hex s).
Proof. intros Hw s Hs. apply key_64. by apply (w_key _ _ _ _ W i w s Hw). Qed.

Ltac go := apply fine_bind;
  [first [apply fine_ulong_or|apply fine_log|apply fine_string|apply fine_decimal_or
         |apply fine_required; first [apply fine_string|apply fine_ulong]|idtac]|].
Ltac ep n := apply fine_bind; [apply (fine_endpoint _ n); [done|cbn [known]; set_solver|set_solver]|].

Lemma fine_sentinels : fine (read_sentinel_options stod env p).
Proof.
  unfold read_sentinel_options. go. intros t _. go. intros n _. go; [|by intros].
  apply fine_upto. intros i. unfold read_sentinel. ep (Of "sentinel" i "endpoint"). intros ? _.
  go. intros ? _. go. intros ps Hps. go.
  { destruct ps as [s|]; [|done]. go; [|by intros]. apply (fine_key i "private_key" ltac:(set_solver) s Hps). }
  intros ? _. go. intros us Hus. go; [|by intros].
  destruct us as [s|]; [|by case_match]. go; [|by intros].
  apply (fine_key i "public_key" ltac:(set_solver) s Hus).
Qed.

Lemma small n m k : ulong_or stod env p (txt k) 0 = Val n ->
  (forall n, number_is stod env p (Plain k) n -> n <= m) -> n <= m.
Proof.
  intros H Q. unfold ulong_or, value_or in H. step H y Hy. injection H as <-.
  destruct y as [y|]; cbn [default from_option id]; [|lia]. by apply Q.
Qed.
Lemma fine_resize n : n <= vec_max -> fine (resize n).
Proof. intros H. unfold resize. rewrite (proj2 (N.ltb_ge _ _)) by done. done. Qed.

Lemma fine_locking m : fine (read_shard_endpoints stod env p m).
Proof.
  unfold read_shard_endpoints. go. intros n Hn. destruct m; [|done].
  apply fine_bind; [apply fine_resize, (small _ _ "shard_count" Hn), (w_shards _ _ _ _ W)|].
  intros _ _. go; [|by intros]. apply fine_upto. intros i. unfold read_shard_nodes. go. intros c _.
  apply fine_upto. intros j. unfold read_shard_node.
  ep (OfNode "shard" i j "raft_endpoint"). intros ? _.
  ep (OfNode "shard" i j "endpoint"). intros ? _.
  ep (OfNode "shard" i j "readonly_endpoint"). by intros ? _.
Qed.

Lemma fine_shards m : fine (read_shard_options stod env p m).
Proof.
  unfold read_shard_options. go. intros n Hn. go.
  { apply fine_upto. intros i. unfold read_shard. go.
    { destruct m; [done|]. ep (Of "shard" i "endpoint"). intros ? _. go. by intros. }
    intros ? _. go. intros ? _. go. intros ? _. go. by intros. }
  intros l _. go. intros ? _. go. intros fr _. go. intros tt_ _. go; [|by intros [? ?] _].
  case_match; [done|]. go. intros [s|] Hs; [|done]. destruct (length s =? 64)%nat eqn:L; [|done].
  apply Nat.eqb_eq in L. go; [by apply key_64|]. intros ? _. go. by intros.
Qed.

Lemma fine_atomizers : fine (read_atomizer_options stod env p).
Proof.
  unfold read_atomizer_options. go. intros n Hn. go.
  { apply fine_upto. intros i. unfold read_atomizer. ep (Of "atomizer" i "endpoint"). intros ? _. go.
    intros ? _. ep (Of "atomizer" i "raft_endpoint"). by intros. }
  intros ? _. go. intros ? _. go. by intros.
Qed.
Lemma fine_archivers : fine (read_archiver_options stod env p).
Proof.
  unfold read_archiver_options. go. intros n Hn. go; [|by intros].
  apply fine_upto. intros i. unfold read_archiver. ep (Of "archiver" i "endpoint"). intros ? _. go.
  intros ? _. go. by intros.
Qed.
Lemma fine_watchtowers : fine (read_watchtower_options stod env p).
Proof.
  unfold read_watchtower_options. go. intros n Hn. go.
  { apply fine_upto. intros i. unfold read_watchtower.
    ep (Of "watchtower" i "client_endpoint"). intros ? _.
    ep (Of "watchtower" i "internal_endpoint"). intros ? _. go. by intros. }
  intros ? _. go. intros ? _. go. by intros.
Qed.
Lemma fine_coordinators : fine (read_coordinator_options stod env p).
Proof.
  unfold read_coordinator_options. go. intros n Hn.
  apply fine_bind; [apply fine_resize, (small _ _ "coordinator_count" Hn), (w_coordinators _ _ _ _ W)|].
  intros _ _. go.
  { apply fine_upto. intros i. unfold read_coordinator. go. intros ? _. go. intros c _.
    go; [|by intros]. apply fine_upto. intros j. unfold read_coordinator_node.
    ep (OfNode "coordinator" i j "raft_endpoint"). intros ? _.
    ep (OfNode "coordinator" i j "endpoint"). by intros ? _. }
  intros ? _. go. by intros.
Qed.

Lemma load_fine : fine (load_options stod zero one env file).
Proof.
  unfold load_options. apply fine_bind; [|intros o _; by case_match].
  unfold read_options. rewrite (w_file _ _ _ _ W). cbn [obind].
  go. intros ? _. go; [apply fine_sentinels|]. intros ? _. go; [apply fine_locking|]. intros ? _.
  go; [apply fine_shards|]. intros ? _. go; [apply fine_atomizers|]. intros ? _.
  go; [apply fine_archivers|]. intros ? _. go; [apply fine_watchtowers|]. intros ? _.
  go; [apply fine_coordinators|]. intros ? _.
  go. { unfold read_raft_options. repeat (go; intros ? _). done. }
  intros ? _. go; [|by intros]. unfold read_loadgen_options. repeat (go; intros ? _). done.
Qed.

Lemma load_total :
  (exists o, load_options stod zero one env file = Val o) \/
  (exists e, load_options stod zero one env file = Bad e).
Proof. pose proof load_fine as F. destruct (load_options _ _ _ _ _); [left|right| | |]; eauto; done. Qed.
End Total.
