From Verif Require Import Base HexModel.
From Coq Require Import String.
From stdpp Require Import base option list gmap sets.
From Coq Require Import NArith Lia.
From Verif Require Import ConfigModel ConfigText RaftFilesModel RaftFilesSpec.
Open Scope N_scope.

(** ** Names *)
Lemma cut_digits (a b d e : list N) : Forall (fun c => is_digit c = true) d ->
  Forall (fun c => is_digit c = true) e -> a ++ 95 :: d = b ++ 95 :: e -> a = b /\ d = e.
Proof.
  intros Fd Fe H. revert b H. induction a as [|x a IH]; intros b H.
  - destruct b as [|y b]; cbn in H; [split; [done|exact (f_equal (@tl N) H)]|].
    injection H as _ H. exfalso. subst d. apply Forall_app in Fd as [_ Fd].
    apply Forall_cons in Fd as [H1 _]. vm_compute in H1. discriminate.
  - destruct b as [|y b]; cbn in H.
    + injection H as _ H. exfalso. subst e. apply Forall_app in Fe as [_ Fe].
      apply Forall_cons in Fe as [H1 _]. vm_compute in H1. discriminate.
    + injection H as -> H. destruct (IH b H) as [-> ->]. done.
Qed.

Lemma middle_shape k : exists m, middle k = m ++ [95] /\
  forall k' m' (a b : list N), middle k' = m' ++ [95] -> a ++ m = b ++ m' -> k = k' /\ a = b.
Proof.
  destruct k.
  - exists (txt "_raft_config"). split; [reflexivity|]. intros k' m' a b Hm H.
    destruct k'.
    + change (middle KConfig) with (txt "_raft_config" ++ [95]) in Hm.
      apply app_inv_tail in Hm as <-. apply app_inv_tail in H. done.
    + change (middle KState) with (txt "_raft_state" ++ [95]) in Hm.
      apply app_inv_tail in Hm as <-. exfalso.
      apply (f_equal last) in H.
      change (txt "_raft_config") with (txt "_raft_confi" ++ txt "g") in H.
      change (txt "_raft_state") with (txt "_raft_stat" ++ txt "e") in H.
      rewrite !app_assoc in H.
      change (txt "g") with [103] in H. change (txt "e") with [101] in H.
      rewrite !last_snoc in H. discriminate.
  - exists (txt "_raft_state"). split; [reflexivity|]. intros k' m' a b Hm H.
    destruct k'.
    + change (middle KConfig) with (txt "_raft_config" ++ [95]) in Hm.
      apply app_inv_tail in Hm as <-. exfalso.
      apply (f_equal last) in H.
      change (txt "_raft_config") with (txt "_raft_confi" ++ txt "g") in H.
      change (txt "_raft_state") with (txt "_raft_stat" ++ txt "e") in H.
      rewrite !app_assoc in H.
      change (txt "g") with [103] in H. change (txt "e") with [101] in H.
      rewrite !last_snoc in H. discriminate.
    + change (middle KState) with (txt "_raft_state" ++ [95]) in Hm.
      apply app_inv_tail in Hm as <-. apply app_inv_tail in H. done.
Qed.

Lemma file_name_inj k n k' n' : file_name k n = file_name k' n' -> k = k' /\ n = n'.
Proof.
  unfold file_name. destruct n as [t i], n' as [t' i']. cbn [n_type n_id].
  destruct (middle_shape k) as (m & -> & Hk). destruct (middle_shape k') as (m' & Em & _).
  rewrite Em. intros H. rewrite !app_assoc in H. apply app_inv_tail in H.
  rewrite <- !app_assoc in H.
  cbn [app] in H.
  rewrite (app_assoc t m), (app_assoc t' m') in H.
  apply cut_digits in H as [H1 H2]; try apply dec_digits_of.
  destruct (Hk k' m' t t' Em H1) as [-> ->]. apply dec_inj in H2 as ->. done.
Qed.

Lemma tmp_not_file k n f : tmp_name f <> file_name k n.
Proof.
  unfold tmp_name, file_name. intros H. rewrite !app_assoc in H.
  apply (f_equal last) in H.
  change (txt ".tmp") with (txt ".tm" ++ [112]) in H.
  change (txt ".dat") with (txt ".da" ++ [116]) in H.
  rewrite !app_assoc, !last_snoc in H. discriminate.
Qed.
Lemma log_dir_inj n n' : log_dir n = log_dir n' -> n = n'.
Proof.
  unfold log_dir. destruct n as [t i], n' as [t' i']. cbn [n_type n_id].
  change (txt "_raft_log_") with (txt "_raft_log" ++ [95]). rewrite <- !app_assoc.
  cbn [app]. intros H.
  rewrite (app_assoc t), (app_assoc t') in H.
  apply cut_digits in H as [H1 H2]; try apply dec_digits_of.
  apply app_inv_tail in H1 as ->. apply dec_inj in H2 as ->. done.
Qed.
Lemma log_dir_not_file n k n' : log_dir n <> file_name k n' /\ log_dir n <> tmp_name (file_name k n').
Proof.
  assert (exists x c, log_dir n = x ++ [c] /\ is_digit c = true) as (x & c & E & Hc).
  { unfold log_dir. destruct n as [t i]. cbn [n_type n_id].
    destruct (last (ConfigModel.dec i)) as [c|] eqn:L.
    - apply last_Some in L as [l' E]. exists (t ++ txt "_raft_log_" ++ l'), c.
      rewrite E, <- !app_assoc. split; [reflexivity|].
      pose proof (dec_digits_of i) as F. rewrite E in F. apply Forall_app in F as [_ F].
      by apply Forall_cons in F as [F _].
    - apply last_None in L. by destruct (dec_not_nil i). }
  split; intros H; rewrite E in H; apply (f_equal last) in H.
  - unfold file_name in H. change (txt ".dat") with (txt ".da" ++ [116]) in H.
    rewrite !app_assoc, !last_snoc in H. injection H as ->. vm_compute in Hc. discriminate.
  - unfold tmp_name in H. change (txt ".tmp") with (txt ".tm" ++ [112]) in H.
    rewrite !app_assoc, !last_snoc in H. injection H as ->. vm_compute in Hc. discriminate.
Qed.

(** ** Saving *)
Lemma tmp_ne (f : list N) : tmp_name f <> f.
Proof.
  unfold tmp_name. intros H. apply (f_equal length) in H. rewrite app_length in H.
  change (length (txt ".tmp")) with 4%nat in H. lia.
Qed.

Lemma save_lookup (d : disk) f b g : g <> tmp_name f ->
  save d f b !! g = if decide (g = f) then Some b else d !! g.
Proof.
  intros N. unfold save, save_steps. cbn [fold_left fs_do].
  rewrite lookup_insert. cbn [default from_option id app].
  rewrite lookup_insert. destruct (decide (g = f)) as [->|Nf].
  - by rewrite lookup_insert.
  - rewrite lookup_insert_ne by congruence. rewrite lookup_delete_ne by congruence.
    rewrite !lookup_insert_ne by congruence. reflexivity.
Qed.

Lemma save_until_lookup (d : disk) f b steps part g : g <> tmp_name f ->
  save_until d f b steps part !! g
  = if decide (g = f /\ (3 <= steps)%nat) then Some b else d !! g.
Proof.
  intros N. unfold save_until.
  destruct steps as [|[|[|steps]]]; cbn [take drop save_steps fold_left fs_do].
  - destruct (decide _) as [[_ H]|_]; [lia|reflexivity].
  - destruct (decide _) as [[_ H]|_]; [lia|]. by rewrite !lookup_insert_ne by congruence.
  - destruct (decide _) as [[_ H]|_]; [lia|]. by rewrite !lookup_insert_ne by congruence.
  - rewrite take_nil, drop_nil. cbn [fold_left].
    change (fold_left fs_do (save_steps f b) d !! g = if decide (g = f /\ (3 <= S (S (S steps)))%nat) then Some b else d !! g).
    pose proof (save_lookup d f b g N) as E. unfold save in E. rewrite E.
    destruct (decide (g = f)) as [->|Nf].
    + by rewrite decide_True by (split; [done|lia]).
    + by rewrite decide_False by (intros [? _]; done).
Qed.

Lemma load_of {A} (dec : bytes -> option A) (d : disk) (f : list N) b : d !! f = b ->
  load_object dec d f
  = match b with
    | None => Missing
    | Some b => match dec b with Some a => Loaded a | None => Threw end
    end.
Proof. by intros <-. Qed.

Section objects.
Context {C T : Type}.
Context (encC : C -> bytes) (decC : bytes -> option C).
Context (encT : T -> bytes) (decT : bytes -> option T).
Hypothesis rtC : forall c, decC (encC c) = Some c.
Hypothesis rtT : forall t, decT (encT t) = Some t.
Context (of_servers : list (N * list N * N) -> C).

Notation enc_of := (encode encC encT).
Notation do_all := (fold_left (act_do encC encT)).

Lemma files_possible l : forall d k n (o : option (object C T)) p,
  d !! file_name k n = enc_of <$> o -> (forall x, o = Some x -> kind_of x = k) -> o ∈ p ->
  exists o', do_all l d !! file_name k n = enc_of <$> o' /\
    (forall x, o' = Some x -> kind_of x = k) /\
    o' ∈ fold_left (possible_step k n) l p.
Proof using Type.
  induction l as [|a l IH]; intros d k n o p Hd Hk Ho; [by exists o|].
  cbn [fold_left]. destruct a as [n' x|n' x steps part]; cbn [act_do possible_step].
  - destruct (decide (n' = n /\ kind_of x = k)) as [[-> <-]|N].
    + apply (IH _ _ _ (Some x)).
      * rewrite save_lookup by (intros E; by apply (tmp_not_file (kind_of x) n (file_name (kind_of x) n))).
        by rewrite decide_True by reflexivity.
      * by intros y [= <-].
      * by apply elem_of_list_singleton.
    + apply (IH _ _ _ o); [|exact Hk|exact Ho].
      rewrite save_lookup by (intros E; by apply (tmp_not_file k n (file_name (kind_of x) n'))).
      rewrite decide_False; [exact Hd|]. intros E. apply file_name_inj in E as [-> ->].
      by apply N.
  - destruct (decide (n' = n /\ kind_of x = k)) as [[-> <-]|N].
    + destruct (decide (3 <= steps)%nat) as [Hs|Hs].
      * apply (IH _ _ _ (Some x)).
        -- rewrite save_until_lookup
             by (intros E; by apply (tmp_not_file (kind_of x) n (file_name (kind_of x) n))).
           by rewrite decide_True by done.
        -- by intros y [= <-].
        -- by apply elem_of_list_here.
      * apply (IH _ _ _ o); [|exact Hk|by apply elem_of_list_further].
        rewrite save_until_lookup
          by (intros E; by apply (tmp_not_file (kind_of x) n (file_name (kind_of x) n))).
        rewrite decide_False; [exact Hd|]. by intros [_ ?].
    + apply (IH _ _ _ o); [|exact Hk|exact Ho].
      rewrite save_until_lookup by (intros E; by apply (tmp_not_file k n (file_name (kind_of x) n'))).
      rewrite decide_False; [exact Hd|]. intros [E _]. apply file_name_inj in E as [-> ->].
      by apply N.
Qed.

Lemma state_found l n :
  match read_state decT (run encC encT l) n with
  | Missing => None ∈ possible l KState n
  | Loaded t => Some (OState t) ∈ possible l KState n
  | Threw => False
  end.
Proof using rtT.
  destruct (files_possible l ∅ KState n None [None]) as (o & Hd & Hk & Ho); [done|done|by apply elem_of_list_singleton|].
  unfold read_state, run. rewrite (load_of _ _ _ _ Hd). destruct o as [[c|t]|]; cbn [fmap option_fmap option_map].
  - specialize (Hk _ eq_refl). discriminate.
  - cbn [encode]. rewrite rtT. exact Ho.
  - exact Ho.
Qed.
Lemma config_found l n eps :
  match load_config decC of_servers (run encC encT l) n eps with
  | Missing => False
  | Loaded c => Some (OConfig c) ∈ possible l KConfig n \/
      None ∈ possible l KConfig n /\ c = of_servers (default_servers 0 eps)
  | Threw => False
  end.
Proof using rtC of_servers.
  destruct (files_possible l ∅ KConfig n None [None]) as (o & Hd & Hk & Ho); [done|done|by apply elem_of_list_singleton|].
  unfold load_config, run. rewrite (load_of _ _ _ _ Hd).
  destruct o as [[c|t]|]; cbn [fmap option_fmap option_map].
  - cbn [encode]. rewrite rtC. by left.
  - specialize (Hk _ eq_refl). discriminate.
  - by right.
Qed.

Lemma possible_last (l m : list (act C T)) n (o : object C T) : Forall (elsewhere (kind_of o) n) m ->
  possible (l ++ ASave n o :: m) (kind_of o) n = [Some o].
Proof using Type.
  intros F. unfold possible. rewrite fold_left_app. cbn [fold_left possible_step].
  rewrite decide_True by done. induction F as [|a m Ha _ IH]; [reflexivity|].
  cbn [fold_left]. destruct a as [n' x|n' x s p]; cbn [possible_step elsewhere] in *;
    rewrite decide_False by exact Ha; exact IH.
Qed.
Lemma state_survives l m n t : Forall (elsewhere KState n) m ->
  read_state decT (run encC encT (l ++ ASave n (OState t) :: m)) n = Loaded t.
Proof using rtT.
  intros F. pose proof (state_found (l ++ ASave n (OState t) :: m) n) as H.
  pose proof (possible_last l m n (OState t) F) as E. cbn [kind_of] in E. rewrite E in H.
  destruct (read_state decT _ n) as [|t'|]; [|f_equal|contradiction];
    apply elem_of_list_singleton in H; congruence.
Qed.
Lemma config_survives l m n c eps : Forall (elsewhere KConfig n) m ->
  load_config decC of_servers (run encC encT (l ++ ASave n (OConfig c) :: m)) n eps = Loaded c.
Proof using rtC of_servers.
  intros F. pose proof (config_found (l ++ ASave n (OConfig c) :: m) n eps) as H.
  pose proof (possible_last l m n (OConfig c) F) as E. cbn [kind_of] in E. rewrite E in H.
  destruct (load_config decC of_servers _ n eps) as [|c'|]; [contradiction|f_equal|contradiction].
  destruct H as [H|[H _]]; apply elem_of_list_singleton in H; congruence.
Qed.
End objects.

(** ** The first configuration *)
Lemma default_lookup eps : forall i j h p, eps !! j = Some (h, p) ->
  default_servers i eps !! j
  = Some (i + N.of_nat j + 1, h ++ txt ":" ++ ConfigModel.dec p,
          if i + N.of_nat j =? 0 then 100 else 1).
Proof.
  induction eps as [|[h0 p0] eps IH]; intros i j h p H; [discriminate|].
  destruct j as [|j]; cbn [default_servers].
  - injection H as -> ->. cbn. by rewrite !N.add_0_r.
  - etransitivity; [exact (IH (i + 1) j h p H)|].
    replace (i + 1 + N.of_nat j) with (i + N.of_nat (S j)) by lia. reflexivity.
Qed.
Lemma default_length eps i : length (default_servers i eps) = length eps.
Proof.
  revert i. induction eps as [|[h p] eps IH]; intros i; [reflexivity|].
  cbn. by rewrite IH.
Qed.
Lemma default_config (eps : list (list N * N)) n h p :
  eps !! N.to_nat (n_id n) = Some (h, p) ->
  own_port n eps = Some p /\
  default_servers 0 eps !! N.to_nat (n_id n)
  = Some (server_id n, h ++ txt ":" ++ ConfigModel.dec p, if n_id n =? 0 then 100 else 1) /\
  length (default_servers 0 eps) = length eps /\
  forall j s, default_servers 0 eps !! j = Some s -> fst (fst s) = server_id n ->
    j = N.to_nat (n_id n).
Proof.
  intros H. unfold own_port, server_id. rewrite H.
  split; [reflexivity|]. split.
  { rewrite (default_lookup eps 0 _ h p H). rewrite N2Nat.id, !N.add_0_l. reflexivity. }
  split; [apply default_length|].
  intros j s Hj Hs. destruct (eps !! j) as [[h' p']|] eqn:E.
  - rewrite (default_lookup eps 0 j h' p' E) in Hj. injection Hj as <-. cbn in Hs. lia.
  - apply lookup_ge_None in E. apply lookup_lt_Some in Hj. rewrite default_length in Hj. lia.
Qed.

(** ** Votes *)
Section vote.
Context (enc : N * option N -> bytes) (dec : bytes -> option (N * option N)).
Hypothesis rt : forall t, dec (enc t) = Some t.
Context (n : node).

Definition on_disk (v : voter) : Prop :=
  v_disk v !! file_name KState n = Some (enc (v_term v, v_for v)) \/
  v_disk v !! file_name KState n = None /\ v_term v = 0 /\ v_for v = None.
Definition vote_ok (v : voter) : Prop :=
  on_disk v /\
  (forall t c, (t, c) ∈ v_votes v -> t < v_term v \/ t = v_term v /\ v_for v = Some c) /\
  (forall t c c', (t, c) ∈ v_votes v -> (t, c') ∈ v_votes v -> c = c').

Lemma may_vote_spec v t c : may_vote v t c = true ->
  v_term v < t \/ v_term v = t /\ (v_for v = None \/ v_for v = Some c).
Proof.
  unfold may_vote. intros H. apply orb_prop in H as [H|H]; [left; by apply N.ltb_lt|right].
  apply andb_prop in H as [H1 H2]. split; [by apply N.eqb_eq|]. destruct (v_for v) as [c'|]; [|by left].
  right. f_equal. by apply N.eqb_eq.
Qed.

Lemma votes_new v t c : vote_ok v -> may_vote v t c = true ->
  forall t' c', (t', c') ∈ v_votes v -> t' < t \/ t' = t /\ Some c = Some c'.
Proof.
  intros (_ & Hv & _) M t' c' H. apply may_vote_spec in M. destruct (Hv t' c' H) as [Ht|[-> Hf]].
  - left. lia.
  - destruct M as [M|[M [Mf|Mf]]]; [by left|congruence|]. right. split; [done|]. congruence.
Qed.

Lemma restart_ok d votes t f : on_disk (Voter d t f votes) ->
  restart dec n d votes = Some (Voter d t f votes).
Proof.
  intros [H|(H & Ht & Hf)]; cbn in *; unfold restart, read_state; rewrite (load_of _ _ _ _ H).
  - by rewrite rt.
  - by subst.
Qed.

Lemma vote_step_ok v e : vote_ok v -> exists v', vote_step enc dec n v e = Some v' /\ vote_ok v'.
Proof.
  intros K. pose proof K as (Hd & Hv & Hu). destruct e as [t c|t c steps part]; cbn [vote_step].
  - destruct (may_vote v t c) eqn:M; [|eauto]. eexists. split; [reflexivity|].
    pose proof (votes_new v t c K M) as Hn.
    split; [|split]; cbn [v_votes v_term v_for v_disk].
    + left. cbn [v_disk v_term v_for]. rewrite save_lookup by (intros E; by apply (tmp_not_file KState n (file_name KState n))).
      by rewrite decide_True by reflexivity.
    + intros t' c' H. apply elem_of_app in H as [H|H].
      * destruct (Hn t' c' H) as [?|[? ?]]; [by left|by right].
      * apply elem_of_list_singleton in H. injection H as -> ->. by right.
    + intros t' c1 c2 H1 H2. apply elem_of_app in H1, H2.
      destruct H1 as [H1|H1], H2 as [H2|H2].
      * by apply (Hu t').
      * apply elem_of_list_singleton in H2. injection H2 as -> ->.
        destruct (Hn t c1 H1) as [?|[_ ?]]; [lia|congruence].
      * apply elem_of_list_singleton in H1. injection H1 as -> ->.
        destruct (Hn t c2 H2) as [?|[_ ?]]; [lia|congruence].
      * apply elem_of_list_singleton in H1, H2. congruence.
  - destruct (may_vote v t c) eqn:M.
    + pose proof (votes_new v t c K M) as Hn.
      set (d := save_until _ _ _ _ _).
      assert (L : d !! file_name KState n
                  = if decide (file_name KState n = file_name KState n /\ (3 <= steps)%nat)
                    then Some (enc (t, Some c)) else v_disk v !! file_name KState n).
      { unfold d. apply save_until_lookup. intros E.
        by apply (tmp_not_file KState n (file_name KState n)). }
      destruct (decide (file_name KState n = file_name KState n /\ (3 <= steps)%nat)) as [_|_].
      * exists (Voter d t (Some c) (v_votes v)). split; [apply restart_ok; by left|].
        split; [by left|]. split; [|exact Hu]. cbn. intros t' c' H.
        destruct (Hn t' c' H) as [?|[? ?]]; [by left|by right].
      * assert (on_disk (Voter d (v_term v) (v_for v) (v_votes v))) as Od.
        { destruct Hd as [Hd|Hd]; [left|right]; cbn; rewrite L; exact Hd. }
        eexists. split; [exact (restart_ok _ _ _ _ Od)|]. split; [exact Od|]. split; [exact Hv|exact Hu].
    + eexists. split; [exact (restart_ok _ _ (v_term v) (v_for v) Hd)|].
      split; [exact Hd|]. split; [exact Hv|exact Hu].
Qed.

Lemma vote_run_ok l v : vote_ok v -> exists v', vote_run enc dec n v l = Some v' /\ vote_ok v'.
Proof.
  revert v. induction l as [|e l IH]; intros v K; [by exists v|].
  cbn [vote_run]. destruct (vote_step_ok v e K) as (v1 & -> & K1). by apply IH.
Qed.
Lemma votes_once l : exists v, vote_run enc dec n (Voter ∅ 0 None []) l = Some v /\
  forall t c c', (t, c) ∈ v_votes v -> (t, c') ∈ v_votes v -> c = c'.
Proof.
  destruct (vote_run_ok l (Voter ∅ 0 None [])) as (v & H & _ & _ & Hu).
  { split; [right; split; [apply lookup_empty|done]|]. split; [intros t c H|intros t c c' H];
      by apply elem_of_nil in H. }
  by exists v.
Qed.
End vote.
