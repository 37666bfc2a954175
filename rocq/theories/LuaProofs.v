(** Proofs for C88. *)
From Coq Require Import NArith List Bool Lia.
From stdpp Require Import base option list.
From Verif Require Import Base CodecModel LuaModel LuaSpec.
Import ListNotations.
Open Scope N_scope.

(** * Tables *)

Lemma index_of_found t s v i : lua_table t -> nth_error t i = Some (LStr s, v) -> index_of t s = Some i.
Proof.
  revert i. induction t as [|[k w] t IH]; intros i U H; [destruct i; discriminate|].
  assert (U' : lua_table t).
  { intros a b s' v' w' A B. specialize (U (S a) (S b) s' v' w' A B). now injection U. }
  destruct i as [|i]; cbn [nth_error] in H.
  - injection H as -> ->. cbn [index_of]. now rewrite bool_decide_eq_true_2.
  - cbn [index_of]. destruct k as [k|k|k|]; try (now rewrite (IH i U' H)).
    rewrite bool_decide_eq_false_2; [now rewrite (IH i U' H)|].
    intros ->. specialize (U 0%nat (S i) s w v eq_refl H). discriminate U.
Qed.

Lemma emplace_new u k v : ~ In k (map fst u) -> emplace u k v = u ++ [(k, v)].
Proof.
  intros N. unfold emplace. destruct (existsb _ u) eqn:E; [|reflexivity]. exfalso. apply N.
  apply existsb_exists in E as (e & I & E). apply bool_decide_eq_true in E. subst k. now apply in_map.
Qed.

Lemma text_table_lua t m : text_table t m -> lua_table t.
Proof.
  intros [F N] i j s v w A B.
  assert (K : forall i s v, nth_error t i = Some (LStr s, v) -> nth_error (map fst m) i = Some s).
  { clear N A B. induction F as [|[k x] [k' y] t m [E _] F IH]; intros a z u H; [destruct a; discriminate|].
    destruct a as [|a]; cbn in *; [|now apply (IH a z u)]. injection H as -> ->. cbn in E. now injection E as ->. }
  apply K in A. apply K in B. apply NoDup_ListNoDup in N.
  apply (proj1 (NoDup_nth_error _) N); [|congruence]. apply nth_error_Some. congruence.
Qed.

Lemma walk_text f t m u i : lua_table t ->
  Forall2 (fun e d => fst e = LStr (fst d) /\ to_text (snd e) = Some (snd d)) (skipn i t) m ->
  NoDup (map fst (u ++ m)) -> (length (skipn i t) < f)%nat ->
  walk f t i u = WResult (Updates (u ++ m)).
Proof.
  revert i u m. induction f as [|f IH]; intros i u m U F N B; [lia|]. cbn [walk].
  destruct (nth_error t i) as [[k v]|] eqn:E.
  - assert (S : skipn i t = (k, v) :: skipn (S i) t).
    { clear -E. revert i E. induction t as [|x t IH]; intros [|i] E; try discriminate; cbn in *.
      - now injection E as ->.
      - now apply IH. }
    rewrite S in F, B. inversion F as [|x [k' v'] l m' [K V] F']; subst. cbn [fst snd] in *. subst k.
    cbn [to_text]. rewrite V. rewrite (index_of_found t k' v i U E).
    assert (NI : ~ In k' (map fst u)).
    { rewrite map_app in N. apply NoDup_app in N as (_ & D & _). intros H.
      apply (D k' (proj2 (elem_of_list_In _ _) H)). cbn. left. }
    rewrite emplace_new by exact NI.
    rewrite (IH (Datatypes.S i) (u ++ [(k', v')]) m' U F').
    + now rewrite <- app_assoc.
    + rewrite <- app_assoc. exact N.
    + cbn [length] in B. lia.
  - assert (S : skipn i t = []).
    { apply skipn_all2. apply nth_error_None. exact E. }
    rewrite S in F. inversion F; subst. now rewrite app_nil_r.
Qed.

Lemma walk_table f t m : text_table t m -> (length t < f)%nat -> walk f t 0 [] = WResult (Updates m).
Proof.
  intros T B. destruct T as [F N] eqn:?. apply (walk_text f t m [] 0 (text_table_lua t m (conj F N))); assumption.
Qed.

(** What the loop can report, from an entry on, for a table without numbers as keys. *)
Lemma walk_reports f t i u r : lua_table t -> ~ has_number_key t ->
  walk f t i u = WResult r ->
  (exists m, Forall2 (fun e d => fst e = LStr (fst d) /\ to_text (snd e) = Some (snd d)) (skipn i t) m /\
     r = Updates (fold_left (fun u d => emplace u (fst d) (snd d)) m u)) \/
  (r = Failed ResultKeyType /\ Exists (fun e => to_text (fst e) = None) t) \/
  (r = Failed ResultValueType /\ Exists (fun e => to_text (snd e) = None) t).
Proof.
  intros U NK. revert i u. induction f as [|f IH]; intros i u; [discriminate|]. cbn [walk].
  destruct (nth_error t i) as [[k v]|] eqn:E.
  - assert (I : In (k, v) t) by exact (nth_error_In _ _ E).
    destruct (to_text k) as [kb|] eqn:K.
    2: { intros [= <-]. right. left. split; [reflexivity|]. apply Exists_exists. exists (k, v).
         split; [now apply elem_of_list_In|exact K]. }
    destruct (to_text v) as [vb|] eqn:V.
    2: { intros [= <-]. right. right. split; [reflexivity|]. apply Exists_exists. exists (k, v).
         split; [now apply elem_of_list_In|exact V]. }
    destruct k as [s|s|s|]; try discriminate K.
    2: { exfalso. apply NK. apply Exists_exists. exists (LNum s, v). split; [now apply elem_of_list_In|]. now exists s. }
    injection K as ->. rewrite (index_of_found t kb v i U E). intros W.
    destruct (IH _ _ W) as [(m & F & R)|O]; [|right; exact O].
    left. exists ((kb, vb) :: m). split; [|exact R].
    assert (S : skipn i t = (LStr kb, v) :: skipn (S i) t).
    { clear -E. revert i E. induction t as [|x t IH]; intros [|i] E; try discriminate; cbn in *.
      - now injection E as ->.
      - now apply IH. }
    rewrite S. constructor; [|exact F]. split; [reflexivity|exact V].
  - intros [= <-]. left. exists []. split; [|reflexivity].
    replace (skipn i t) with (@nil (lval * lval)); [constructor|]. symmetry. apply skipn_all2. apply nth_error_None. exact E.
Qed.

Lemma fold_emplace m u : NoDup (map fst (u ++ m)) ->
  fold_left (fun u d => emplace u (fst d) (snd d)) m u = u ++ m.
Proof.
  revert u. induction m as [|[k v] m IH]; intros u N; [now rewrite app_nil_r|]. cbn [fold_left fst snd].
  rewrite emplace_new.
  - rewrite IH; rewrite <- app_assoc; [reflexivity|exact N].
  - rewrite map_app in N. apply NoDup_app in N as (_ & D & _). intros H.
    apply (D k (proj2 (elem_of_list_In _ _) H)). cbn. left.
Qed.

Lemma keys_nodup t m : lua_table t ->
  Forall2 (fun e d => fst e = LStr (fst d) /\ to_text (snd e) = Some (snd d)) t m -> NoDup (map fst m).
Proof.
  intros U F. apply NoDup_ListNoDup, NoDup_nth_error. intros i j B E.
  assert (K : forall i s, nth_error (map fst m) i = Some s -> exists v, nth_error t i = Some (LStr s, v)).
  { clear U B E. induction F as [|[k x] [k' y] t m [E _] F IH]; intros a z H; [destruct a; discriminate|].
    destruct a as [|a]; cbn in *; [|now apply IH]. injection H as ->. subst k. now exists x. }
  apply nth_error_Some in B. destruct (nth_error (map fst m) i) as [s|] eqn:A; [|congruence].
  symmetry in E. destruct (K i s A) as [v V]. destruct (K j s E) as [w W]. exact (U i j s v w V W).
Qed.

Lemma walk_fine f t r : lua_table t -> walk f t 0 [] = WResult r ->
  (exists m, text_table t m /\ r = Updates m) \/
  (r = Failed ResultKeyType /\ Exists (fun e => to_text (fst e) = None) t) \/
  (r = Failed ResultValueType /\ Exists (fun e => to_text (snd e) = None) t) \/ has_number_key t.
Proof.
  intros U W.
  assert (D : has_number_key t \/ ~ has_number_key t).
  { destruct (decide (Exists (fun e => is_Some (match fst e with LNum n => Some n | _ => None end)) t)) as [X|X].
    - left. refine (Exists_impl _ _ _ X _). intros [k v] [n E]. cbn in *. destruct k; try discriminate. now exists s.
    - right. intros Y. apply X. refine (Exists_impl _ _ _ Y _). intros [k v] [n E]. cbn in *. subst k. now exists n. }
  destruct D as [D|D]; [auto|].
  destruct (walk_reports f t 0 [] r U D W) as [(m & F & ->)|[O|O]]; [|auto|auto].
  left. exists m. change (skipn 0 t) with t in F. pose proof (keys_nodup t m U F) as N.
  split; [exact (conj F N)|]. now rewrite (fold_emplace m []).
Qed.

Lemma number_key_dec t : has_number_key t \/ ~ has_number_key t.
Proof.
  destruct (decide (Exists (fun e => is_Some (match fst e with LNum n => Some n | _ => None end)) t)) as [X|X].
  - left. refine (Exists_impl _ _ _ X _). intros [k v] [n E]. cbn in *. destruct k; try discriminate. now exists s.
  - right. intros Y. apply X. refine (Exists_impl _ _ _ Y _). intros [k v] [n E]. cbn in *. subst k. now exists n.
Qed.

Lemma walk_ends f t i u : lua_table t -> ~ has_number_key t -> (length t < f + i)%nat -> (i <= length t)%nat ->
  exists r, walk f t i u = WResult r.
Proof.
  intros U NK. revert i u. induction f as [|f IH]; intros i u B LE; [lia|]. cbn [walk].
  destruct (nth_error t i) as [[k v]|] eqn:E; [|eauto].
  destruct (to_text k) as [kb|] eqn:K; [|eauto]. destruct (to_text v) as [vb|]; [|eauto].
  destruct k as [s|s|s|]; try discriminate K.
  - injection K as ->. rewrite (index_of_found t kb v i U E). apply IH; [lia|].
    assert (i < length t)%nat by (apply nth_error_Some; congruence). lia.
  - exfalso. apply NK. apply Exists_exists. exists (LNum s, v). split; [|now exists s].
    apply elem_of_list_In. exact (nth_error_In _ _ E).
Qed.

(** * Runs *)
Section Runs.
Context {L : Type}.
Variable resume : L -> bytes -> resumed L.
Hypothesis P : proper_tables resume.

Lemma ends_now f st i flag later s acts : schedule resume f st i flag = (s, acts) ->
  match s with
  | Waiting st' => exists v k, resume st i = LYield [v] st' /\ to_text v = Some k /\ flag = true /\ acts = [ALock k]
  | Finished => exists r, ends resume (st, i) flag later [] r /\ acts = [AReport r]
  | Dead => acts = [] /\ (resume st i = LDies \/ exists t, resume st i = LReturn [LTable t] /\ has_number_key t)
  | Lost => acts = [] /\ (resume st i = LForever \/
              exists t, resume st i = LReturn [LTable t] /\ (has_number_key t \/ (f <= length t)%nat))
  end.
Proof.
  unfold schedule. destruct (resume st i) as [vs st'|vs| | |] eqn:R.
  - destruct vs as [|v [|v' vs]].
    + intros [= <- <-]. eexists. split; [|reflexivity]. apply (e_yield_count _ _ _ _ _ _ _ R). discriminate.
    + destruct (to_text v) as [k|] eqn:T.
      * destruct flag; intros [= <- <-]; [exists v, k; auto|].
        eexists. split; [|reflexivity]. exact (e_not_issued _ _ _ _ _ _ _ R T).
      * intros [= <- <-]. eexists. split; [|reflexivity]. exact (e_yield_type _ _ _ _ _ _ _ R T).
    + intros [= <- <-]. eexists. split; [|reflexivity]. apply (e_yield_count _ _ _ _ _ _ _ R). discriminate.
  - unfold epilogue. destruct vs as [|v [|v' vs]].
    + intros [= <- <-]. eexists. split; [|reflexivity]. apply (e_result_count _ _ _ _ _ _ R). discriminate.
    + destruct v as [v|v|t|].
      * intros [= <- <-]. eexists. split; [|reflexivity]. apply (e_result_type _ _ _ _ _ _ R). discriminate.
      * intros [= <- <-]. eexists. split; [|reflexivity]. apply (e_result_type _ _ _ _ _ _ R). discriminate.
      * pose proof (P _ _ _ R) as U. pose proof (walk_ends f t 0 [] U) as WE.
        destruct (walk f t 0 []) as [r| |] eqn:W; intros [= <- <-].
        -- exists r. split; [|reflexivity].
           destruct (walk_fine f t r U W) as [(m & T & ->)|[(-> & X)|[(-> & X)|X]]].
           ++ exact (e_updates _ _ _ _ _ _ _ R T).
           ++ exact (e_result_key _ _ _ _ _ _ R X).
           ++ exact (e_result_value _ _ _ _ _ _ R X).
           ++ exact (e_number_key _ _ _ _ _ _ _ R X).
        -- split; [reflexivity|]. right. exists t. split; [reflexivity|].
           destruct (number_key_dec t) as [X|X]; [exact X|]. exfalso.
           (* without numbers, every key is found *)
           clear WE. revert W U X. clear. intros W U X.
           assert (G : forall f i u, walk f t i u <> WPanic).
           { clear f W. intros f. induction f as [|f IH]; intros i u; [discriminate|]. cbn [walk].
             destruct (nth_error t i) as [[k v]|] eqn:E; [|discriminate].
             destruct (to_text k) as [kb|] eqn:K; [|discriminate]. destruct (to_text v); [|discriminate].
             destruct k as [s|s|s|]; try discriminate K.
             - injection K as ->. rewrite (index_of_found t kb v i U E). apply IH.
             - exfalso. apply X. apply Exists_exists. exists (LNum s, v). split; [|now exists s].
               apply elem_of_list_In. exact (nth_error_In _ _ E). }
           exact (G _ _ _ W).
        -- split; [reflexivity|]. right. exists t. split; [reflexivity|].
           destruct (number_key_dec t) as [X|X]; [left; exact X|]. right.
           destruct (le_lt_dec f (length t)) as [B|B]; [exact B|]. destruct (WE X) as [r R']; [lia|lia|discriminate R'].
      * intros [= <- <-]. eexists. split; [|reflexivity]. apply (e_result_type _ _ _ _ _ _ R). discriminate.
    + destruct v; intros [= <- <-]; (eexists; split; [|reflexivity]; apply (e_result_count _ _ _ _ _ _ R); discriminate).
  - intros [= <- <-]. eexists. split; [|reflexivity]. exact (e_exec _ _ _ _ _ R).
  - intros [= <- <-]. auto.
  - intros [= <- <-]. auto.
Qed.

Lemma on_locks_still f s l : (forall st, s <> Waiting st) -> on_locks resume f s l = (s, []).
Proof.
  intros N. induction l as [|a l IH]; [reflexivity|]. cbn [on_locks]. unfold on_lock.
  destruct s; [now destruct (N st)| | |]; now rewrite IH.
Qed.

Lemma run_explained f st input issued l s acts :
  run resume f (Some st) input issued l = (s, acts) -> explained resume f st input issued l s acts.
Proof.
  unfold run. revert st input issued s acts. induction l as [|[a b] l IH]; intros st input issued s acts;
    destruct (schedule resume f st input issued) as [s1 a1] eqn:S.
  - cbn [on_locks]. intros [= <- <-]. rewrite app_nil_r. exists [], (st, input). split; [constructor|]. split; [reflexivity|].
    cbn. pose proof (ends_now f st input issued None s1 a1 S) as E. destruct s1.
    + destruct E as (v & k & R & T & F & A). exists v, k. auto.
    + destruct E as (r & E & A). exists [], r. auto.
    + exact E.
    + exact E.
  - pose proof (ends_now f st input issued (Some a) s1 a1 S) as E. destruct s1.
    + destruct E as (v & k & R & T & F & A). subst a1 issued. cbn [on_locks]. unfold on_lock at 1. cbn [fst snd].
      assert (Sub : forall w, a = Value w ->
        (let (s2, a2) := let (s3, a3) := schedule resume f st0 w b in let (s4, a4) := on_locks resume f s3 l in (s4, a3 ++ a4) in
         (s2, [ALock k] ++ a2)) = (s, acts) -> explained resume f st input true ((a, b) :: l) s acts).
      { intros w -> H.
        destruct (let (s3, a3) := schedule resume f st0 w b in let (s4, a4) := on_locks resume f s3 l in (s4, a3 ++ a4))
          as [s2 a2] eqn:E2. injection H as <- <-.
        destruct (IH st0 w b s2 a2 E2) as (trace & last & A & V & X).
        exists ((k, w) :: trace), last. split; [exact (asks_one _ _ _ _ _ _ _ _ _ R T A)|].
        split; [cbn; f_equal; exact V|]. cbn [length map nth nth_error fst snd]. cbn zeta in X |- *.
        destruct s2.
        - destruct X as (v' & k' & X1 & X2 & X3 & X4 & ->). exists v', k'. repeat split; auto.
        - destruct X as (d & r & X1 & ->). exists d, r. split; [exact X1|reflexivity].
        - destruct X as [-> X]. split; [reflexivity|exact X].
        - destruct X as [-> X]. split; [reflexivity|exact X]. }
      destruct a as [w| |w].
      * intros H. apply (Sub w eq_refl). rewrite <- H.
        destruct (schedule resume f st0 w b) as [s3 a3]. destruct (on_locks resume f s3 l). reflexivity.
      * rewrite on_locks_still by discriminate. intros [= <- <-]. exists [], (st, input).
        split; [constructor|]. split; [reflexivity|]. cbn. exists [k], (Failed LockError). split; [|reflexivity].
        apply (e_lock _ _ _ _ _ _ _ R T). auto.
      * destruct w; rewrite on_locks_still by discriminate; intros [= <- <-]; exists [], (st, input);
          (split; [constructor|]); (split; [reflexivity|]); cbn.
        -- exists [k], (Failed Wounded). split; [|reflexivity]. exact (e_wounded _ _ _ _ _ _ R T).
        -- exists [k], (Failed LockError). split; [|reflexivity]. apply (e_lock _ _ _ _ _ _ _ R T). auto.
    + rewrite on_locks_still by discriminate. intros [= <- <-]. rewrite app_nil_r.
      exists [], (st, input). split; [constructor|]. split; [reflexivity|]. cbn.
      destruct E as (r & E & A). exists [], r. auto.
    + rewrite on_locks_still by discriminate. intros [= <- <-]. rewrite app_nil_r.
      exists [], (st, input). split; [constructor|]. split; [reflexivity|]. exact E.
    + rewrite on_locks_still by discriminate. intros [= <- <-]. rewrite app_nil_r.
      exists [], (st, input). split; [constructor|]. split; [reflexivity|]. exact E.
Qed.

(** A contract that asks for the keys of [trace] and returns a table has its table reported. *)
Lemma run_returns f st input trace last t m : asks resume st input trace last ->
  resume (fst last) (snd last) = LReturn [LTable t] -> text_table t m -> (length t < f)%nat ->
  run resume f (Some st) input true (map (fun e => (Value (snd e), true)) trace) =
  (Finished, map ALock (map fst trace) ++ [AReport (Updates m)]).
Proof.
  intros A R T B. induction A as [st input|st input v k st' w trace last Y K A IH].
  - unfold run, schedule. cbn [fst snd] in R. rewrite R. unfold epilogue. rewrite (walk_table f t m T B). reflexivity.
  - specialize (IH R). unfold run in *. unfold schedule at 1. rewrite Y, K. cbn [map on_locks]. unfold on_lock at 1. cbn [fst snd].
    destruct (schedule resume f st' w true) as [s3 a3].
    destruct (on_locks resume f s3 (map (fun e => (Value (snd e), true)) trace)) as [s4 a4].
    injection IH as -> ->. reflexivity.
Qed.

Lemma run_unloaded f input issued l :
  run resume f None input issued l = (Finished, [AReport (Failed FunctionLoad)]).
Proof. reflexivity. Qed.
End Runs.

Lemma run_readonly {L} (resume : L -> bytes -> resumed L) f st input broker v st' k l :
  resume st input = LYield [v] st' -> to_text v = Some k ->
  run resume f (Some st) input (write_lock_issued true broker) l = (Finished, [AReport (Failed InternalError)]).
Proof.
  intros R T. unfold run, schedule. rewrite R, T. cbn [write_lock_issued].
  rewrite on_locks_still by discriminate. reflexivity.
Qed.

Lemma check_sig_iff parse verify sha args : check_sig parse verify sha args = true <->
  exists key sig msg, map to_text args = [Some key; Some sig; Some msg] /\
    length key = 32%nat /\ length sig = 64%nat /\ parse key = true /\ verify key sig (sha msg) = true.
Proof.
  unfold check_sig. split.
  - destruct args as [|a [|b [|c [|d args]]]]; try discriminate. cbn [length Nat.eqb negb].
    destruct (forallb _ _); [|discriminate]. cbn [negb].
    destruct (mapM to_text [a; b; c]) as [[|key [|sig [|msg [|x l]]]]|] eqn:M; try discriminate.
    apply mapM_Some in M. inversion M as [|? ? ? ? A M1]; subst. inversion M1 as [|? ? ? ? B M2]; subst.
    inversion M2 as [|? ? ? ? C M3]; subst.
    destruct (Nat.eqb_spec (length key) 32) as [LK|]; [|discriminate].
    destruct (Nat.eqb_spec (length sig) 64) as [LS|]; [|discriminate].
    destruct (parse key) eqn:PK; [|discriminate]. cbn [negb]. intros V. exists key, sig, msg.
    cbn [map]. rewrite A, B, C. auto.
  - intros (key & sig & msg & E & LK & LS & PK & V). destruct args as [|a [|b [|c [|d args]]]]; try discriminate.
    injection E as A B C. cbn [length Nat.eqb negb forallb]. rewrite A, B, C. cbn [andb negb].
    assert (M : mapM to_text [a; b; c] = Some [key; sig; msg]) by (apply mapM_Some; repeat constructor; assumption).
    rewrite M, LK, LS, PK. exact V.
Qed.
