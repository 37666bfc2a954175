(** Proofs for property C97. *)
From Coq Require Import NArith List Bool Lia.
From stdpp Require Import base option list.
From Verif Require Import Base CodecModel CodecProofs RandModel RandSpec.
Import ListNotations.
Open Scope N_scope.

Lemma le_bytes_mod n : forall v, le_bytes n (v mod 256 ^ N.of_nat n) = le_bytes n v.
Proof.
  induction n as [|n IH]; intros v; [done|]. cbn [le_bytes].
  replace (256 ^ N.of_nat (S n)) with (256 * 256 ^ N.of_nat n).
  2: { rewrite Nat2N.inj_succ, N.pow_succ_r'. done. }
  assert (P : 256 ^ N.of_nat n <> 0) by (apply N.pow_nonzero; lia).
  rewrite N.mod_mul_r by done. f_equal.
  - rewrite N.mul_comm, N.mod_add by done. by rewrite N.mod_mod.
  - rewrite N.mul_comm, N.div_add by done. rewrite (N.div_small (v mod 256)) by (by apply N.mod_lt).
    rewrite N.add_0_l. apply IH.
Qed.
Lemma le8_wrap v : le_bytes 8 (wrap64 v) = le_bytes 8 v.
Proof. apply (le_bytes_mod 8 v). Qed.
Lemma be8_wrap v : be_bytes 8 (wrap64 v) = be_bytes 8 v.
Proof. unfold be_bytes. by rewrite le8_wrap. Qed.

Lemma wrap_add a b : wrap64 (wrap64 a + b) = wrap64 (a + b).
Proof. unfold wrap64, two64. by rewrite N.add_mod_idemp_l. Qed.
Lemma wrap_mul a b : wrap64 (wrap64 a * b) = wrap64 (a * b).
Proof. unfold wrap64, two64. by rewrite N.mul_mod_idemp_l. Qed.
Lemma wrap_mod64 a : wrap64 a mod 64 = a mod 64.
Proof.
  unfold wrap64. replace two64 with (64 * 288230376151711744) by done.
  rewrite N.mod_mul_r by done. rewrite N.mul_comm, N.mod_add by done. by rewrite N.mod_mod.
Qed.

Lemma swapped_lt w : swapped w < 2 ^ 32.
Proof.
  unfold swapped. pose proof (le_value_bound (be_bytes 4 w) (be_bytes_is_byte 4 w)) as H.
  unfold len in H. by rewrite be_bytes_length in H.
Qed.
Lemma swapped_twice w : w < 2 ^ 32 -> swapped (swapped w) = w.
Proof.
  intros H. unfold swapped at 1, be_bytes. unfold swapped.
  pose proof (le_bytes_value (be_bytes 4 w) (be_bytes_is_byte 4 w)) as E.
  rewrite be_bytes_length in E. rewrite E. unfold be_bytes. rewrite rev_involutive.
  by apply le_value_bytes.
Qed.

Lemma map_swapped s : Forall (fun w => w < 2 ^ 32) s -> map swapped (map swapped s) = s.
Proof. induction 1 as [|w s H _ IH]; [done|]. cbn [map]. by rewrite IH, swapped_twice. Qed.

Section rand.
  Context (transform : list N -> bytes -> list N) (initial : list N).
  Notation write := (write transform).
  Notation finalize := (finalize transform).
  Notation hash_at_index := (hash_at_index transform).
  Notation chain := (chain transform initial).
  Notation draw := (draw transform).
  Notation draws := (draws transform).

  Lemma write_small c d : (length (sh_buf c ++ d) < 64)%nat ->
    write c d = Sha (sh_s c) (sh_buf c ++ d) (wrap64 (sh_bytes c + N.of_nat (length d))).
  Proof. intros H. unfold RandModel.write. by rewrite Nat.div_small. Qed.
  Lemma write_full c d : length (sh_buf c ++ d) = 64%nat ->
    write c d = Sha (transform (sh_s c) (sh_buf c ++ d)) [] (wrap64 (sh_bytes c + N.of_nat (length d))).
  Proof.
    intros H. unfold RandModel.write. rewrite H. change (64 / 64)%nat with 1%nat. cbn [feed].
    change (64 * 1)%nat with 64%nat. rewrite (firstn_all2 (n:=64)) by lia. by rewrite skipn_all2 by lia.
  Qed.

  (** Finalize when the buffer and the length fit into one block. *)
  Lemma finalize_one s b n : (length b < 56)%nat -> n mod 64 = N.of_nat (length b) ->
    finalize (Sha s b (wrap64 n)) =
    (Sha (transform s (b ++ 128 :: repeat 0 (55 - length b) ++ be_bytes 8 (n * 8))) []
         (wrap64 (n + (64 - N.of_nat (length b)))),
     digest (transform s (b ++ 128 :: repeat 0 (55 - length b) ++ be_bytes 8 (n * 8)))).
  Proof.
    intros L M. unfold RandModel.finalize. cbn [sh_bytes sh_buf sh_s]. rewrite wrap_mod64, M.
    replace (N.to_nat ((119 - N.of_nat (length b)) mod 64)) with (55 - length b)%nat.
    2: { replace (119 - N.of_nat (length b)) with ((55 - N.of_nat (length b)) + 1 * 64) by lia.
         rewrite N.mod_add by done. rewrite N.mod_small by lia. lia. }
    rewrite (write_small (Sha s b _) (128 :: _)).
    2: { cbn [sh_buf]. rewrite app_length. cbn [length]. rewrite repeat_length. lia. }
    cbn [sh_bytes sh_buf sh_s]. rewrite wrap_mul, be8_wrap.
    rewrite write_full.
    2: { cbn [sh_buf]. rewrite !app_length. cbn [length]. rewrite repeat_length, be_bytes_length. lia. }
    cbn [sh_bytes sh_buf sh_s]. rewrite <- app_assoc. cbn [app].
    rewrite !wrap_add. rewrite be_bytes_length. cbn [length]. rewrite repeat_length.
    rewrite <- (N.add_assoc (wrap64 n)), wrap_add. f_equal. f_equal. f_equal. lia.
  Qed.

  Lemma hash_later s n : hash_at_index (Sha s [] (wrap64 (64 * N.of_nat n))) (wrap64 (N.of_nat n)) =
    (Sha (transform s (later_block n)) [] (wrap64 (64 * N.of_nat (S n))),
     digest (transform s (later_block n))).
  Proof.
    unfold RandModel.hash_at_index. rewrite le8_wrap.
    rewrite write_small by (cbn [sh_buf app]; rewrite le_bytes_length; lia).
    cbn [sh_bytes sh_buf sh_s app]. rewrite wrap_add, le_bytes_length.
    rewrite finalize_one.
    - rewrite le_bytes_length. change (55 - 8)%nat with 47%nat.
      replace ((64 * N.of_nat n + N.of_nat 8) * 8) with (8 * (64 * N.of_nat n + 8)) by lia.
      fold (later_block n). f_equal. f_equal. f_equal. lia.
    - rewrite le_bytes_length. lia.
    - rewrite le_bytes_length. rewrite N.add_comm, N.mul_comm, N.mod_add by done. done.
  Qed.

  Lemma hash_first seed : length seed = 32%nat ->
    hash_at_index (write (sha0 initial) seed) 0 =
    (Sha (transform initial (first_block seed)) [] (wrap64 (64 * N.of_nat 1)),
     digest (transform initial (first_block seed))).
  Proof.
    intros L. rewrite write_small by (cbn [sh_buf sha0 app]; lia). cbn [sh_bytes sh_buf sh_s sha0 app].
    unfold RandModel.hash_at_index. rewrite write_small.
    2: { cbn [sh_buf]. rewrite app_length, le_bytes_length. lia. }
    cbn [sh_bytes sh_buf sh_s]. rewrite wrap_add, le_bytes_length, L.
    rewrite finalize_one; rewrite ?app_length, ?le_bytes_length, L; [|lia|done].
    unfold first_block. rewrite <- app_assoc. done.
  Qed.

  (** After [k] numbers: the rest of the words of the last block, and the hasher. *)
  Definition ready (seed : bytes) (k : nat) (r : source) : Prop :=
    (k = 0%nat /\ rs_buf r = [] /\ rs_counter r = 0 /\ rs_sha r = write (sha0 initial) seed) \/
    (exists n j, k = (8 * n + j)%nat /\ (j <= 8)%nat /\ rs_buf r = digest (drop j (chain seed n)) /\
       rs_counter r = wrap64 (N.of_nat (S n)) /\
       rs_sha r = Sha (chain seed n) [] (wrap64 (64 * N.of_nat (S n)))).

  Lemma draw_buffered r w rest : rs_buf r = be_bytes 4 w ++ rest ->
    draw r = (swapped w, Source (rs_sha r) rest (rs_counter r)).
  Proof.
    intros E. destruct (be_bytes 4 w) as [|a [|b [|c [|d [|]]]]] eqn:F;
      try (apply (f_equal length) in F; rewrite be_bytes_length in F; discriminate).
    unfold RandModel.draw, next_byte. rewrite E. change (swapped w) with (le_value (be_bytes 4 w)). by rewrite F.
  Qed.

  Lemma draw_empty r c w rest : rs_buf r = [] ->
    hash_at_index (rs_sha r) (rs_counter r) = (c, be_bytes 4 w ++ rest) ->
    draw r = (swapped w, Source c rest (wrap64 (rs_counter r + 1))).
  Proof.
    intros E H. destruct (be_bytes 4 w) as [|a [|b [|d [|e [|]]]]] eqn:F;
      try (apply (f_equal length) in F; rewrite be_bytes_length in F; discriminate).
    unfold RandModel.draw, next_byte. rewrite E, H. change (swapped w) with (le_value (be_bytes 4 w)). by rewrite F.
  Qed.

  Hypothesis good : proper transform initial.

  Lemma chain_words seed n : words (chain seed n).
  Proof. induction n; cbn; by apply good; try apply good. Qed.

  Lemma digest_drop s j : words s -> (j < 8)%nat ->
    digest (drop j s) = be_bytes 4 (nth j s 0) ++ digest (drop (S j) s).
  Proof.
    intros [L _] H. destruct (nth_split s 0 (n:=j)) as (a & b & E & La); [lia|].
    rewrite E at 1 3. rewrite drop_app_alt by done.
    replace (a ++ nth j s 0 :: b) with ((a ++ [nth j s 0]) ++ b) by (by rewrite <- app_assoc).
    rewrite drop_app_alt by (rewrite app_length; cbn; lia). done.
  Qed.

  Lemma draw_ready seed k r : length seed = 32%nat -> ready seed k r ->
    exists r', draw r = (number transform initial seed k, r') /\ ready seed (S k) r'.
  Proof.
    intros L H.
    assert (New : forall n, k = (8 * n)%nat -> rs_buf r = [] ->
       rs_counter r = wrap64 (N.of_nat n) ->
       hash_at_index (rs_sha r) (rs_counter r) =
         (Sha (chain seed n) [] (wrap64 (64 * N.of_nat (S n))), digest (chain seed n)) ->
       exists r', draw r = (number transform initial seed k, r') /\ ready seed (S k) r').
    { intros n Hk Hb Hc Hh.
      pose proof (digest_drop (chain seed n) 0 (chain_words seed n) ltac:(lia)) as D.
      change (drop 0 (chain seed n)) with (chain seed n) in D. rewrite D in Hh.
      eexists. split.
      - rewrite (draw_empty r _ _ _ Hb Hh). f_equal. unfold number. rewrite Hk.
        rewrite (Nat.mul_comm 8 n), Nat.mod_mul, Nat.div_mul by done. done.
      - right. exists n, 1%nat. split; [lia|]. split; [lia|]. cbn [rs_buf rs_counter rs_sha].
        split; [done|]. split; [|done]. rewrite Hc, wrap_add. f_equal. lia. }
    destruct H as [(Hk & Hb & Hc & Hs)|(n & j & Hk & Hj & Hb & Hc & Hs)].
    - apply (New 0%nat); [lia|done|done|]. rewrite Hs, Hc. by apply hash_first.
    - destruct (decide (j = 8)%nat) as [->|Ne].
      + assert (E : drop 8 (chain seed n) = []) by (apply drop_ge; by destruct (chain_words seed n) as [-> _]).
        apply (New (S n)); [lia|by rewrite Hb, E|done|]. rewrite Hs, Hc. apply hash_later.
      + rewrite digest_drop in Hb by (first [apply chain_words|lia]).
        eexists. split.
        * rewrite (draw_buffered r _ _ Hb). f_equal. unfold number. rewrite Hk.
          rewrite (Nat.add_comm (8 * n)), (Nat.mul_comm 8 n), Nat.mod_add, Nat.div_add by done.
          rewrite Nat.mod_small, Nat.div_small by lia. done.
        * right. exists n, (S j). split; [lia|]. split; [lia|]. done.
  Qed.

  Lemma draws_ready seed : length seed = 32%nat -> forall m k r, ready seed k r ->
    exists r', draws m r = (map (number transform initial seed) (seq k m), r') /\ ready seed (k + m) r'.
  Proof.
    intros L. induction m as [|m IH]; intros k r H.
    - exists r. rewrite Nat.add_0_r. done.
    - destruct (draw_ready seed k r L H) as (r1 & E1 & H1).
      destruct (IH (S k) r1 H1) as (r2 & E2 & H2). exists r2. cbn [RandModel.draws seq map].
      rewrite E1, E2. split; [done|]. by replace (k + S m)%nat with (S k + m)%nat by lia.
  Qed.

  Lemma opened seed file checked : length seed = 32%nat -> firstn 32 file = seed ->
    exists r, open_source transform initial checked (Some file) = Some r /\ ready seed 0 r.
  Proof.
    intros L <-. unfold open_source. change (default [] (Some file)) with file. rewrite L. cbn [Nat.eqb Nat.sub repeat]. rewrite app_nil_r.
    replace (checked && negb true) with false by (by destruct checked).
    eexists. split; [reflexivity|]. left. done.
  Qed.

  Lemma stream file checked m : (32 <= length file)%nat ->
    exists r, open_source transform initial checked (Some file) = Some r /\
      fst (draws m r) = map (number transform initial (firstn 32 file)) (seq 0 m).
  Proof.
    intros L. assert (Ls : length (firstn 32 file) = 32%nat) by (rewrite firstn_length; lia).
    destruct (opened _ file checked Ls eq_refl) as (r & E & R). exists r. split; [done|].
    destruct (draws_ready _ Ls m 0 r R) as (r' & -> & _). done.
  Qed.

  (** ** Guessing *)

  Lemma numbers_of_block seed n :
    map (number transform initial seed) (seq (8 * n) 8) = map swapped (chain seed n).
  Proof.
    destruct (chain_words seed n) as [L _].
    assert (H : forall j, (j < 8)%nat -> number transform initial seed (8 * n + j) = swapped (nth j (chain seed n) 0)).
    { intros j Hj. unfold number. rewrite (Nat.add_comm (8 * n)), (Nat.mul_comm 8 n), Nat.mod_add, Nat.div_add by done.
      rewrite Nat.mod_small, Nat.div_small by lia. done. }
    destruct (chain seed n) as [|w0 [|w1 [|w2 [|w3 [|w4 [|w5 [|w6 [|w7 [|]]]]]]]]] eqn:E; try discriminate.
    assert (Sq : seq (8 * n) 8 = map (fun j => (8 * n + j)%nat) (seq 0 8)).
    { generalize (8 * n)%nat. intros a. cbn [seq map]. repeat (apply f_equal2; [lia|]). done. }
    rewrite Sq, map_map. cbn [seq map]. rewrite !H by lia. done.
  Qed.

  Lemma guessed seed n :
    guess transform n (map (number transform initial seed) (seq (8 * n) 8)) =
    map (number transform initial seed) (seq (8 * n + 8) 8).
  Proof.
    replace (8 * n + 8)%nat with (8 * S n)%nat by lia. rewrite !numbers_of_block. unfold guess.
    by rewrite map_swapped by apply chain_words.
  Qed.

  Lemma guess_draws file checked r n m :
    (32 <= length file)%nat -> open_source transform initial checked (Some file) = Some r ->
    (8 * n + 16 <= m)%nat ->
    guess transform n (take 8 (drop (8 * n) (fst (draws m r)))) =
    take 8 (drop (8 * n + 8) (fst (draws m r))).
  Proof.
    intros L E Hm. destruct (stream file checked m L) as (r' & E' & D). assert (r' = r) as -> by congruence.
    rewrite D.
    assert (T : forall a, (a + 8 <= m)%nat ->
      take 8 (drop a (map (number transform initial (firstn 32 file)) (seq 0 m))) =
      map (number transform initial (firstn 32 file)) (seq a 8)).
    { intros a Ha. rewrite skipn_map, firstn_map. f_equal.
      replace m with (a + (8 + (m - a - 8)))%nat by lia. rewrite seq_app, drop_app_alt by (by rewrite seq_length).
      rewrite seq_app, take_app_alt by (by rewrite seq_length). done. }
    rewrite !T by lia. apply guessed.
  Qed.

  (** ** Seeds *)

  Lemma first_block_inj a b : length a = length b -> first_block a = first_block b -> a = b.
  Proof. intros L H. unfold first_block in H. by apply app_inj_1 in H as [? _]. Qed.

  Lemma seeds_differ fa fb ca cb ra rb :
    (32 <= length fa)%nat -> (32 <= length fb)%nat -> firstn 32 fa <> firstn 32 fb ->
    open_source transform initial ca (Some fa) = Some ra ->
    open_source transform initial cb (Some fb) = Some rb ->
    fst (draws 8 ra) <> fst (draws 8 rb) \/
    (first_block (firstn 32 fa) <> first_block (firstn 32 fb) /\
     transform initial (first_block (firstn 32 fa)) = transform initial (first_block (firstn 32 fb))).
  Proof.
    intros La Lb Ne Ea Eb. destruct (stream fa ca 8 La) as (r & E & Da). assert (r = ra) as -> by congruence.
    destruct (stream fb cb 8 Lb) as (r & E' & Db). assert (r = rb) as -> by congruence.
    destruct (decide (fst (draws 8 ra) = fst (draws 8 rb))) as [Eq|]; [right|by left].
    rewrite Da, Db in Eq. change (seq 0 8) with (seq (8 * 0) 8) in Eq. rewrite !numbers_of_block in Eq.
    apply (f_equal (map swapped)) in Eq. rewrite !map_swapped in Eq by apply chain_words. cbn in Eq.
    split; [|exact Eq]. intros H. apply Ne. eapply first_block_inj; [|exact H].
    rewrite !firstn_length. lia.
  Qed.

  (** ** Hashes *)

  Lemma hashes_ready seed : length seed = 32%nat -> forall m k r, ready seed (32 * k) r ->
    fst (random_hashes transform m r) =
    map (fun i => map (fun x => number transform initial seed x / 2 ^ 24) (seq (32 * i) 32)) (seq k m).
  Proof.
    intros L. induction m as [|m IH]; intros k r H; [done|].
    cbn [random_hashes seq map]. unfold random_hash.
    destruct (draws_ready seed L 32 (32 * k) r H) as (r1 & E1 & H1). rewrite E1.
    replace (32 * k + 32)%nat with (32 * S k)%nat in H1 by lia. specialize (IH (S k) r1 H1).
    destruct (random_hashes transform m r1) as [l r2]. cbn [fst] in *. rewrite IH. by rewrite map_map.
  Qed.

  Lemma hashes_drawn file checked m : (32 <= length file)%nat ->
    exists r, open_source transform initial checked (Some file) = Some r /\
      fst (random_hashes transform m r) =
      map (fun i => map (fun x => number transform initial (firstn 32 file) x / 2 ^ 24) (seq (32 * i) 32)) (seq 0 m).
  Proof.
    intros L. assert (Ls : length (firstn 32 file) = 32%nat) by (rewrite firstn_length; lia).
    destruct (opened _ file checked Ls eq_refl) as (r & E & R). exists r. split; [done|].
    by apply hashes_ready.
  Qed.

  Lemma hash_bytes file checked m h r : (32 <= length file)%nat ->
    open_source transform initial checked (Some file) = Some r ->
    h ∈ fst (random_hashes transform m r) -> length h = 32%nat /\ Forall is_byte h.
  Proof.
    intros L E. destruct (hashes_drawn file checked m L) as (r' & E' & D). assert (r' = r) as -> by congruence.
    rewrite D. intros H. apply elem_of_list_In, in_map_iff in H as (i & <- & _). split.
    - by rewrite map_length, seq_length.
    - apply Forall_forall. intros b Hb. apply elem_of_list_In, in_map_iff in Hb as (x & <- & _).
      unfold is_byte. apply N.div_lt_upper_bound; [done|]. unfold number.
      eapply N.lt_le_trans; [apply swapped_lt|]. done.
  Qed.

  (** ** Sources that cannot be read *)

  Lemma unreadable file : match file with Some b => length b < 32 | None => True end%nat ->
    open_source transform initial true file = None /\
    open_source transform initial false file =
      open_source transform initial false
        (Some (default [] file ++ repeat 0 (32 - length (default [] file)))).
  Proof.
    intros H. set (b := default [] file). assert (L : (length b < 32)%nat) by (subst b; destruct file; cbn; lia).
    unfold open_source. fold b.
    change (default [] (Some (b ++ repeat 0 (32 - length b)))) with (b ++ repeat 0 (32 - length b)).
    rewrite !(firstn_all2 (n:=32)) by (rewrite ?app_length, ?repeat_length; lia). cbn [andb]. split.
    - destruct file as [f|]; [|done]. cbn in b. subst b. destruct (Nat.eqb_spec (length f) 32); [lia|done].
    - rewrite app_length, repeat_length. replace (32 - (length b + (32 - length b)))%nat with 0%nat by lia.
      by rewrite app_nil_r.
  Qed.
End rand.
