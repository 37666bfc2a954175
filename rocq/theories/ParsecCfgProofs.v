(** Proofs about the command line of the PArSEC programs. *)
From Coq Require Import NArith String Lia.
From stdpp Require Import base option list.
From Verif Require Import Base HexModel ConfigModel ConfigText ParsecCfgModel ParsecCfgSpec.
From Verif Require ConfigSpec ConfigProofs.
Open Scope N_scope.

(** * split *)
Lemma starts_spec delim s : starts delim s = true <-> exists b, s = delim ++ b.
Proof.
  revert s. induction delim as [|d ds IH]; intros s; cbn [starts app].
  - split; [|done]. intros _. by exists s.
  - destruct s as [|c r].
    + split; [done|]. by intros [b [=]].
    + rewrite andb_true_iff, IH, N.eqb_eq. split.
      * intros [-> [b ->]]. by exists b.
      * intros [b [= -> ->]]. split; [done|]. by exists b.
Qed.
Lemma starts_not delim s : starts delim s = false -> forall b, s <> delim ++ b.
Proof.
  intros H b E. assert (T : starts delim s = true) by (apply starts_spec; by exists b). congruence.
Qed.

Lemma split_not_nil delim k s cur : split_from delim k s cur <> [].
Proof.
  revert k cur. induction s as [|c r IH]; intros [|k] cur; cbn [split_from];
    [discriminate..| |apply IH].
  destruct (starts delim (c :: r)); [discriminate|apply IH].
Qed.

Lemma split_skip delim d s cur : split_from delim (length d) (d ++ s) cur = split_from delim O s cur.
Proof. induction d as [|c d IH]; cbn [length app split_from]; [done|exact IH]. Qed.

Lemma split_found c ds s cur :
  split_from (c :: ds) O ((c :: ds) ++ s) cur = rev cur :: split_from (c :: ds) O s [].
Proof.
  cbn [app split_from]. rewrite (proj2 (starts_spec (c :: ds) (c :: ds ++ s))) by (by exists s).
  f_equal. cbn [length]. replace (S (length ds) - 1)%nat with (length ds) by lia.
  apply split_skip.
Qed.

Lemma split_none delim s cur : (forall a b, s <> a ++ delim ++ b) ->
  split_from delim O s cur = [rev cur ++ s].
Proof.
  revert cur. induction s as [|c r IH]; intros cur H; cbn [split_from].
  - by rewrite app_nil_r.
  - destruct (starts delim (c :: r)) eqn:S.
    + apply starts_spec in S as [b E]. by destruct (H [] b).
    + rewrite IH.
      * cbn [rev]. by rewrite <- app_assoc.
      * intros a b E. apply (H (c :: a) b). by rewrite E.
Qed.

Lemma split_char c a s cur : c ∉ a ->
  split_from [c] O (a ++ c :: s) cur = (rev cur ++ a) :: split_from [c] O s [].
Proof.
  revert cur. induction a as [|x a IH]; intros cur H.
  - rewrite app_nil_r. exact (split_found c [] s cur).
  - apply not_elem_of_cons in H as [Hx H]. cbn [app split_from starts].
    replace (c =? x) with false by (symmetry; by apply N.eqb_neq). cbn [andb].
    rewrite IH by done. cbn [rev]. by rewrite <- app_assoc.
Qed.

Lemma split_one delim s cur t : split_from delim O s cur = [t] ->
  t = rev cur ++ s /\ (delim <> [] -> forall a b, s <> a ++ delim ++ b).
Proof.
  revert cur. induction s as [|c r IH]; intros cur; cbn [split_from].
  - intros [= <-]. rewrite app_nil_r. split; [done|]. intros Hd a b E.
    apply (f_equal length) in E. rewrite !app_length in E. destruct delim; [done|cbn in E; lia].
  - destruct (starts delim (c :: r)) eqn:S.
    + intros [= _ E]. by apply split_not_nil in E.
    + intros H. apply IH in H as [-> H]. split; [cbn [rev]; by rewrite <- app_assoc|].
      intros Hd [|x a] b E; [by apply (starts_not _ _ S b)|]. injection E as -> E.
      by apply (H Hd a b).
Qed.

Lemma split_two c ds s cur k v : split_from (c :: ds) O s cur = [k; v] ->
  exists k', k = rev cur ++ k' /\ s = k' ++ (c :: ds) ++ v /\
    (forall a b, v <> a ++ (c :: ds) ++ b) /\ (ds = [] -> c ∉ k').
Proof.
  revert cur. induction s as [|x r IH]; intros cur; cbn [split_from]; [done|].
  destruct (starts (c :: ds) (x :: r)) eqn:S.
  - apply starts_spec in S as [b E]. injection E as -> ->. intros [= <- H].
    rewrite Nat.sub_0_r, split_skip in H. apply split_one in H as [-> H]. exists [].
    split; [by rewrite app_nil_r|]. split; [done|]. split; [by apply H|].
    intros _. apply not_elem_of_nil.
  - intros H. apply IH in H as (k' & -> & -> & H & N). exists (x :: k').
    split; [cbn [rev]; by rewrite <- app_assoc|]. split; [done|]. split; [done|].
    intros E. apply not_elem_of_cons. split; [|by apply N].
    intros <-. subst ds. by apply (starts_not _ _ S (k' ++ [c] ++ v)).
Qed.

Lemma no_char_iff c (s : string) : c ∉ s <-> forall a b, s <> a ++ [c] ++ b.
Proof.
  split.
  - intros H a b ->. apply H. rewrite elem_of_app. right. apply elem_of_cons. by left.
  - intros H E. apply elem_of_list_split in E as (a & b & ->). by apply (H a b).
Qed.

Lemma shown_dashes k v : shown k v = txt "--" ++ (k ++ txt "=" ++ v).
Proof. reflexivity. Qed.

(** * parse_args *)
Lemma parse_arg_setting a k v : parse_arg a = Some (k, v) <-> setting a k v.
Proof.
  unfold parse_arg, split. change (txt "--") with [45; 45]. change (txt "=") with [61]. split.
  - destruct (split_from [45; 45] O a []) as [|a0 [|a1 [|? ?]]] eqn:S; try discriminate.
    apply split_two in S as (k' & E0 & -> & H & _). cbn in E0. subst k'.
    destruct (bool_decide_reflect (a0 = [])) as [->|]; [|discriminate]. cbn [negb orb].
    destruct (bool_decide_reflect (a1 = [])) as [|_]; [discriminate|].
    destruct (split_from [61] O a1 []) as [|x [|y [|? ?]]] eqn:S; try discriminate.
    intros [= -> ->]. apply split_two in S as (k' & E0 & -> & Hv & Hk). cbn in E0. subst k'.
    split; [reflexivity|]. split; [by apply Hk|]. split; [by apply no_char_iff|].
    intros (x & y & E). by apply (H x y).
  - intros (-> & Hk & Hv & Hd). rewrite shown_dashes. change (txt "--") with [45; 45].
    change (txt "=") with [61] in *. rewrite split_found. cbn [rev].
    rewrite split_none by (intros x y E; apply Hd; by exists x, y). cbn [rev app].
    rewrite bool_decide_true by done. cbn [negb orb].
    rewrite bool_decide_false by (by destruct k). cbn [orb].
    rewrite split_char by done. rewrite split_none by (by apply no_char_iff). reflexivity.
Qed.

Lemma parse_args_settings p args o : parse_args (p :: args) = Some o <->
  Forall2 (fun a e => setting a e.1 e.2) args o.
Proof.
  change (parse_args (p :: args)) with (mapM parse_arg args).
  rewrite (mapM_Some parse_arg args o : mapM parse_arg args = Some (o : opts) <-> _). split; intros H.
  - eapply Forall2_impl; [exact H|]. intros a [k v] E. by apply parse_arg_setting.
  - eapply Forall2_impl; [exact H|]. intros a [k v] E. by apply parse_arg_setting.
Qed.

Lemma find_cons k e o : find_opt k (e :: o) = if bool_decide (e.1 = k) then Some e.2 else find_opt k o.
Proof. unfold find_opt. cbn [List.find]. by case_bool_decide. Qed.

Lemma shown_inj k v k' v' : 61 ∉ k -> 61 ∉ k' -> shown k v = shown k' v' -> k = k' /\ v = v'.
Proof.
  intros Hk Hk' E. rewrite !shown_dashes in E. apply app_inv_head in E.
  change (txt "=") with [61] in E. cbn [app] in E. clear -Hk Hk' E. revert k' Hk' E.
  induction k as [|c k IH]; intros [|c' k'] Hk' E.
  - by injection E.
  - injection E as <- _. by apply not_elem_of_cons in Hk' as [].
  - injection E as -> _. by apply not_elem_of_cons in Hk as [].
  - apply not_elem_of_cons in Hk as [? Hk]. apply not_elem_of_cons in Hk' as [? Hk'].
    injection E as -> E. by destruct (IH Hk k' Hk' E) as [-> ->].
Qed.

Lemma find_given args o k v : Forall2 (fun a e => setting a e.1 e.2) args o ->
  61 ∉ k -> find_opt k o = Some v -> given args k v.
Proof.
  intros F Hk. induction F as [|a [k' v'] args o H F IH]; [done|]. rewrite find_cons. cbn [fst snd].
  cbn [fst snd] in H. destruct H as (-> & Hk' & _ & _). case_bool_decide as E.
  - intros [= ->]. subst k'. exists [], args. split; [done|]. intros w. apply not_elem_of_nil.
  - intros Hf. apply IH in Hf as (b & f & -> & N). exists (shown k' v' :: b), f.
    split; [done|]. intros w. apply not_elem_of_cons. split; [|done].
    intros Q. apply shown_inj in Q as [Q _]; congruence.
Qed.
Lemma find_absent args o k : Forall2 (fun a e => setting a e.1 e.2) args o ->
  61 ∉ k -> find_opt k o = None -> absent args k.
Proof.
  intros F Hk. induction F as [|a [k' v'] args o H F IH].
  - intros _ w. apply not_elem_of_nil.
  - rewrite find_cons. cbn [fst snd]. cbn [fst snd] in H. destruct H as (-> & Hk' & _ & _).
    case_bool_decide as E; [done|]. intros Hf w. apply not_elem_of_cons.
    split; [|by apply IH]. intros Q. apply shown_inj in Q as [Q _]; congruence.
Qed.

(** * Names *)
Lemma no_equals_app a b : 61 ∉ a -> 61 ∉ b -> 61 ∉ a ++ b.
Proof. rewrite elem_of_app. tauto. Qed.
Lemma no_equals_dec n : 61 ∉ dec n.
Proof. apply digits_without; [reflexivity|apply dec_digits_of]. Qed.
Lemma no_equals_txt s : forallb (fun c => negb (c =? 61)) (txt s) = true -> 61 ∉ txt s.
Proof.
  intros H E. rewrite forallb_forall in H. apply elem_of_list_In in E. by apply H in E.
Qed.
Ltac noeq := repeat first [apply no_equals_app|apply no_equals_dec|apply no_equals_txt; reflexivity|assumption].
Arguments no_equals_txt s%string.

(** * What is read is what was said *)
Section Proofs.
Context {D : Type} (stod : string -> option D) (zero : D).

Section Read.
Context (args : list string) (o : opts).
Hypothesis F : Forall2 (fun a e => setting a e.1 e.2) args o.

Lemma endpoints_from_ok name n i l : 61 ∉ name ->
  endpoints_from o name n i = Val (Some l) -> length l = n /\
  forall j e, l !! j = Some e ->
    exists t, given args (name ++ dec (i + N.of_nat j) ++ txt "_endpoint") t /\
              parse_ip_port t = Val e.
Proof.
  intros Hn. revert i l. induction n as [|n IH]; intros i l; cbn [endpoints_from].
  - intros [= <-]. split; [done|]. intros j e. by rewrite lookup_nil.
  - destruct (find_opt _ o) as [t|] eqn:E; [|discriminate]. intros H.
    apply ConfigProofs.obind_val in H as (e & He & H).
    apply ConfigProofs.obind_val in H as (rest & Hr & H).
    destruct rest as [rest|]; [|discriminate]. injection H as <-.
    apply IH in Hr as [Hl Hr]. split; [cbn; by rewrite Hl|].
    intros [|j] e'; cbn [lookup list_lookup].
    + intros [= <-]. exists t. rewrite N.add_0_r. split; [|done].
      eapply find_given; [exact F| |exact E]. noeq.
    + intros Hj. apply Hr in Hj as (t' & G & P). exists t'. split; [|done].
      by replace (i + N.of_nat (S j)) with (i + 1 + N.of_nat j) by lia.
Qed.

Lemma read_endpoints_ok name l : 61 ∉ name ->
  read_endpoints o name = Val (Some l) -> endpoints_are args name l.
Proof.
  intros Hn. unfold read_endpoints. destruct (find_opt _ o) as [t|] eqn:E; [|discriminate].
  intros H. apply ConfigProofs.obind_val in H as (c & Hc & H).
  apply endpoints_from_ok in H as [Hl H]; [|done]. split.
  - exists t. split; [eapply find_given; [exact F| |exact E]; noeq|].
    rewrite Hc. f_equal. lia.
  - intros i e Hi. by apply (H i e).
Qed.

Lemma clusters_from_ok name n i l : 61 ∉ name ->
  clusters_from o name n i = Val (Some l) -> length l = n /\
  forall j c, l !! j = Some c -> endpoints_are args (name ++ dec (i + N.of_nat j)) c.
Proof.
  intros Hn. revert i l. induction n as [|n IH]; intros i l; cbn [clusters_from].
  - intros [= <-]. split; [done|]. intros j e. by rewrite lookup_nil.
  - intros H. apply ConfigProofs.obind_val in H as (c & Hc & H).
    destruct c as [c|]; [|discriminate].
    apply ConfigProofs.obind_val in H as (rest & Hr & H).
    destruct rest as [rest|]; [|discriminate]. injection H as <-.
    apply IH in Hr as [Hl Hr]. split; [cbn; by rewrite Hl|].
    intros [|j] c'; cbn [lookup list_lookup].
    + intros [= <-]. rewrite N.add_0_r. apply read_endpoints_ok; [noeq|done].
    + intros Hj. apply Hr in Hj.
      by replace (i + N.of_nat (S j)) with (i + 1 + N.of_nat j) by lia.
Qed.

Lemma read_clusters_ok name l : 61 ∉ name ->
  read_cluster_endpoints o name = Val (Some l) -> clusters_are args name l.
Proof.
  intros Hn. unfold read_cluster_endpoints. destruct (find_opt _ o) as [t|] eqn:E; [|discriminate].
  intros H. apply ConfigProofs.obind_val in H as (c & Hc & H).
  apply clusters_from_ok in H as [Hl H]; [|done]. split.
  - exists t. split; [eapply find_given; [exact F| |exact E]; noeq|].
    rewrite Hc. f_equal. lia.
  - intros i e Hi. by apply (H i e).
Qed.

Lemma optional_ok {A} k (d : A) f a (R : string -> A -> Prop) : 61 ∉ k ->
  optional o k d f = Val (Some a) -> (forall t, f t = Val (Some a) -> R t a) ->
  option_is args k d R a.
Proof.
  intros Hk. unfold optional. destruct (find_opt k o) as [t|] eqn:E; intros H HR.
  - left. exists t. split; [by eapply find_given|by apply HR].
  - right. injection H as <-. split; [by eapply find_absent|done].
Qed.
End Read.

Lemma some_or_val {A B} (m : outcome (option A)) (f : A -> outcome (option B)) b :
  some_or m f = Val (Some b) -> exists a, m = Val (Some a) /\ f a = Val (Some b).
Proof.
  unfold some_or. intros H. apply ConfigProofs.obind_val in H as ([a|] & Hm & H); [|discriminate].
  by exists a.
Qed.

Lemma faithful p args c : read_config stod zero (p :: args) = Val (Some c) -> means stod zero args c.
Proof.
  unfold read_config. destruct (parse_args (p :: args)) as [o|] eqn:P; [|discriminate].
  apply parse_args_settings in P.
  destruct (find_opt (txt "component_id") o) as [t|] eqn:E; [|discriminate].
  intros H. apply ConfigProofs.obind_val in H as (id & Hid & H).
  apply some_or_val in H as (lv & Hlv & H). apply some_or_val in H as (tm & Htm & H).
  apply some_or_val in H as (nd & Hnd & H). apply some_or_val in H as (sh & Hsh & H).
  apply some_or_val in H as (ag & Hag & H). apply some_or_val in H as (ld & Hld & H).
  apply some_or_val in H as (ct & Hct & H). apply some_or_val in H as (ac & Hac & H).
  apply some_or_val in H as (rn & Hrn & H). injection H as <-.
  unfold means.
  cbn [m_component_id m_node_id m_loglevel m_ticket_machine_endpoints m_shard_endpoints
       m_agent_endpoints m_load_type m_contention_rate m_loadgen_accounts m_runner_type].
  split; [exists t; split; [eapply find_given; [exact P|noeq|exact E]|exact Hid]|].
  split.
  { eapply optional_ok; [exact P|noeq|exact Hnd|]. intros v Hv.
    apply ConfigProofs.obind_val in Hv as (n & Hn & Hv). injection Hv as <-. by exists n. }
  split.
  { eapply optional_ok; [exact P|noeq|exact Hlv|]. intros v [= <-].
    unfold parse_loglevel, level_names.
    repeat (case_bool_decide; [left; subst v; cbn; tauto|]).
    right. split; [done|]. intros l' I. cbn [In] in I.
    repeat (destruct I as [[= <- <-]|I]; [contradiction|]). exact I. }
  split; [eapply read_endpoints_ok; [exact P|noeq|exact Htm]|].
  split; [eapply read_clusters_ok; [exact P|noeq|exact Hsh]|].
  split; [eapply read_endpoints_ok; [exact P|noeq|exact Hag]|].
  split.
  { eapply optional_ok; [exact P|noeq|exact Hld|]. intros v. cbv beta.
    do 2 (case_bool_decide; [intros [= <-]; tauto|]). discriminate. }
  split.
  { eapply optional_ok; [exact P|noeq|exact Hct|]. intros v. cbv beta.
    destruct (stod v); [|discriminate]. by intros [= <-]. }
  split.
  { eapply optional_ok; [exact P|noeq|exact Hac|]. intros v Hv.
    apply ConfigProofs.obind_val in Hv as (n & Hn & Hv). by injection Hv as <-. }
  eapply optional_ok; [exact P|noeq|exact Hrn|]. intros v. cbv beta.
  do 2 (case_bool_decide; [intros [= <-]; tauto|]). discriminate.
Qed.

(** Every argument must be a setting. *)
Lemma all_settings p args c : read_config stod zero (p :: args) = Val (Some c) ->
  forall a, In a args -> exists k v, setting a k v.
Proof.
  unfold read_config. destruct (parse_args (p :: args)) as [o|] eqn:P; [|discriminate].
  apply parse_args_settings in P. intros _ a Ha. apply elem_of_list_In in Ha.
  apply elem_of_list_lookup in Ha as [i Hi].
  destruct (Forall2_lookup_l _ _ _ _ _ P Hi) as ([k v] & _ & H). by exists k, v.
Qed.

Lemma malformed p args a : In a args -> (forall k v, ~ setting a k v) ->
  read_config stod zero (p :: args) = Val None.
Proof.
  intros Ha N. unfold read_config. destruct (parse_args (p :: args)) as [o|] eqn:P; [|done].
  exfalso. apply parse_args_settings in P. apply elem_of_list_In in Ha.
  apply elem_of_list_lookup in Ha as [i Hi].
  destruct (Forall2_lookup_l _ _ _ _ _ P Hi) as ([k v] & _ & H). by apply (N k v).
Qed.

Lemma first_unique {A} (f : string -> A) b v a b' v' a' :
  b ++ f v :: a = b' ++ f v' :: a' -> (forall w, f w ∉ b) -> (forall w, f w ∉ b') -> f v = f v'.
Proof.
  revert b'. induction b as [|x b IH]; intros [|x' b'] E N N'.
  - by injection E.
  - injection E as <- _. destruct (N' v). apply elem_of_cons. by left.
  - injection E as -> _. destruct (N v'). apply elem_of_cons. by left.
  - injection E as -> E. apply (IH b' E); intros w Q; [apply (N w)|apply (N' w)];
      apply elem_of_cons; by right.
Qed.
Lemma given_inj args k v v' : 61 ∉ k -> given args k v -> given args k v' -> v = v'.
Proof.
  intros Hk (b & a & -> & N) (b' & a' & E & N').
  apply (first_unique (shown k)) in E; [|done..]. by apply shown_inj in E as [_ E].
Qed.

(** Node [10 k + j] of a shard and node [j] of another share their name. *)
Lemma clash p args c i j i' j' c1 c2 e e' :
  read_config stod zero (p :: args) = Val (Some c) ->
  dec (N.of_nat i) ++ dec (N.of_nat j) = dec (N.of_nat i') ++ dec (N.of_nat j') ->
  m_shard_endpoints c !! i = Some c1 -> c1 !! j = Some e ->
  m_shard_endpoints c !! i' = Some c2 -> c2 !! j' = Some e' -> e = e'.
Proof.
  intros H E H1 He H2 He'. apply faithful in H as (_ & _ & _ & _ & [_ S] & _).
  destruct (S _ _ H1) as [_ S1]. destruct (S _ _ H2) as [_ S2].
  destruct (S1 _ _ He) as (t & G & P). destruct (S2 _ _ He') as (t' & G' & P').
  assert (Q' : forall a b c d : string, (a ++ b) ++ c ++ d = a ++ (b ++ c) ++ d)
    by (intros; by rewrite <- !app_assoc).
  rewrite Q' in G, G'. rewrite E in G.
  assert (t = t') as <- by (eapply given_inj; [|exact G|exact G']; noeq). congruence.
Qed.
End Proofs.
