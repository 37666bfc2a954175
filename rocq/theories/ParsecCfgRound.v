(** What is written for a deployment is read back. *)
From Coq Require Import NArith String Lia.
From stdpp Require Import base option list.
From Verif Require Import Base HexModel ConfigModel ConfigText ParsecCfgModel ParsecCfgSpec
  ParsecCfgProofs.
From Verif Require ConfigProofs.
Open Scope N_scope.

(** * Names are spelled differently *)
Notation digits := (Forall (fun c => is_digit c = true)).
Notation no_digits := (Forall (fun c => is_digit c = false)).

Lemma no_digits_txt s : forallb (fun c => negb (is_digit c)) (txt s) = true -> no_digits (txt s).
Proof.
  intros H. rewrite Forall_forall. intros c E. rewrite forallb_forall in H.
  apply elem_of_list_In in E. apply H in E. by apply negb_true_iff in E.
Qed.
Arguments no_digits_txt s%string.

Lemma words_apart a d r a' d' r' : no_digits a -> no_digits a' ->
  digits d -> digits d' -> d <> [] -> d' <> [] -> a ++ d ++ r = a' ++ d' ++ r' ->
  a = a' /\ d ++ r = d' ++ r'.
Proof.
  intros Fa Fa' Fd Fd' N N' E. destruct d as [|x d]; [done|]. destruct d' as [|x' d']; [done|].
  apply Forall_cons in Fd as [Fx _]. apply Forall_cons in Fd' as [Fx' _].
  cbn [app] in *. revert a' Fa' E.
  induction Fa as [|c a Hc Fa IH]; intros [|c' a'] Fa' E; cbn [app] in E.
  - done.
  - injection E as -> _. apply Forall_cons in Fa' as [Fa' _]. congruence.
  - injection E as -> _. congruence.
  - injection E as -> E. apply Forall_cons in Fa' as [_ Fa']. destruct (IH a' Fa' E) as [-> ?].
    done.
Qed.

Lemma digits_apart d r d' r' : digits d -> digits d' ->
  d ++ 95 :: r = d' ++ 95 :: r' -> d = d' /\ r = r'.
Proof.
  intros Fd Fd'. apply split_underscore; (apply digits_without; [reflexivity|done]).
Qed.

Lemma numbered_apart (a : string) d (r : string) (a' : string) d' (r' : string) :
  no_digits a -> no_digits a' -> digits d -> digits d' -> d <> [] -> d' <> [] ->
  a ++ d ++ 95 :: r = a' ++ d' ++ 95 :: r' -> a = a' /\ d = d' /\ r = r'.
Proof.
  intros Fa Fa' Fd Fd' N N' E. apply words_apart in E as [-> E]; [|done..].
  apply digits_apart in E as [-> ->]; done.
Qed.

Definition ok_name (n : pname) : Prop :=
  match n with
  | Word w => no_digits (txt w)
  | ShardNode _ j => j < 10
  | _ => True
  end.

Lemma dec_small j : j < 10 -> dec j = [48 + j].
Proof.
  intros H. unfold dec. cbn [dec_digits]. replace (j <? 10) with true by (symmetry; by apply N.ltb_lt).
  by rewrite N.mod_small.
Qed.

(** A name with a number: the word before it, the digits, and what is said. *)
Definition parts (n : pname) : option (string * string * string) :=
  match n with
  | Word _ => None
  | TicketMachine i => Some (txt "ticket_machine", dec i, txt "endpoint")
  | ShardSize i => Some (txt "shard", dec i, txt "count")
  | ShardNode i j => Some (txt "shard", dec i ++ dec j, txt "endpoint")
  | Agent i => Some (txt "agent", dec i, txt "endpoint")
  end.
Lemma parts_ok n a d r : parts n = Some (a, d, r) ->
  spelled n = a ++ d ++ 95 :: r /\ no_digits a /\ digits d /\ d <> [].
Proof.
  destruct n as [w|i|i|i j|i]; cbn [parts]; intros [= <- <- <-]; cbn [spelled].
  - split; [reflexivity|]. split; [by apply no_digits_txt|].
    split; [apply dec_digits_of|apply dec_not_nil].
  - split; [reflexivity|]. split; [by apply no_digits_txt|].
    split; [apply dec_digits_of|apply dec_not_nil].
  - split; [by rewrite <- app_assoc|]. split; [by apply no_digits_txt|].
    split; [apply Forall_app; split; apply dec_digits_of|].
    intros E. apply app_eq_nil in E as [E _]. by apply dec_not_nil in E.
  - split; [reflexivity|]. split; [by apply no_digits_txt|].
    split; [apply dec_digits_of|apply dec_not_nil].
Qed.

Lemma parts_inj n m x : ok_name n -> ok_name m -> parts n = Some x -> parts m = Some x -> n = m.
Proof.
  intros On Om Hn Hm. destruct x as [[a d] r].
  destruct n as [w|i|i|i j|i], m as [w'|i'|i'|i' j'|i']; cbn [parts ok_name] in *;
    try discriminate Hn; try discriminate Hm; injection Hn as <- <- <-;
    pose proof (f_equal (fun o => match o with Some y => y.1.1 | None => [] end) Hm) as E1;
    pose proof (f_equal (fun o => match o with Some y => y.1.2 | None => [] end) Hm) as E;
    pose proof (f_equal (fun o => match o with Some y => y.2 | None => [] end) Hm) as E3;
    cbn [fst snd] in E, E1, E3; clear Hm; try discriminate E1; try discriminate E3.
  - apply dec_inj in E. by subst.
  - apply dec_inj in E. by subst.
  - rewrite (dec_small j), (dec_small j') in E by done. apply app_inj_tail in E as [E E2].
    apply dec_inj in E. assert (j = j') by lia. by subst.
  - apply dec_inj in E. by subst.
Qed.

Lemma spelled_inj n m : ok_name n -> ok_name m -> spelled n = spelled m -> n = m.
Proof.
  intros On Om E. destruct (parts n) as [[[a d] r]|] eqn:P, (parts m) as [[[a' d'] r']|] eqn:P'.
  - destruct (parts_ok _ _ _ _ P) as (S & Fa & Fd & N).
    destruct (parts_ok _ _ _ _ P') as (S' & Fa' & Fd' & N').
    rewrite S, S' in E. apply numbered_apart in E as (-> & -> & ->); [|done..].
    by eapply parts_inj.
  - destruct m; try discriminate P'. destruct (parts_ok _ _ _ _ P) as (S & Fa & Fd & N).
    cbn [ok_name spelled] in *. rewrite S in E. destruct d as [|x d]; [done|].
    rewrite <- E in Om. apply Forall_app in Om as [_ Om]. cbn [app] in Om.
    apply Forall_cons in Om as [Om _]. apply Forall_cons in Fd as [Fd _]. congruence.
  - destruct n; try discriminate P. destruct (parts_ok _ _ _ _ P') as (S & Fa & Fd & N).
    cbn [ok_name spelled] in *. rewrite S in E. destruct d' as [|x d']; [done|].
    rewrite E in On. apply Forall_app in On as [_ On]. cbn [app] in On.
    apply Forall_cons in On as [On _]. apply Forall_cons in Fd as [Fd _]. congruence.
  - destruct n; try discriminate P. destruct m; try discriminate P'. cbn in E.
    apply txt_inj in E. by subst.
Qed.

(** * Texts are clean *)
Lemma clean_nodash t : 61 ∉ t -> 45 ∉ t -> clean t.
Proof.
  intros H1 H2. split; [done|]. intros (a & b & ->). apply H2. rewrite elem_of_app. right.
  apply elem_of_cons. by left.
Qed.
Lemma no_char_txt c s : forallb (fun x => negb (x =? c)) (txt s) = true -> c ∉ txt s.
Proof.
  intros H E. rewrite forallb_forall in H. apply elem_of_list_In in E. apply H in E.
  by rewrite N.eqb_refl in E.
Qed.
Arguments no_char_txt c s%string.
Lemma no_char_dec c n : is_digit c = false -> c ∉ dec n.
Proof. intros H. apply digits_without; [done|apply dec_digits_of]. Qed.
Lemma no_app {A} (c : A) a b : c ∉ a -> c ∉ b -> c ∉ a ++ b.
Proof. rewrite elem_of_app. tauto. Qed.
Ltac nochars := repeat first [apply no_app|apply no_char_dec; reflexivity|apply no_char_txt; reflexivity|assumption].

(** In front of a clean text, a text without dashes does no harm. *)
Lemma dashes_after a t : 45 ∉ a -> has_dashes (a ++ t) -> has_dashes t.
Proof.
  intros Ha (x & y & E). revert a Ha E. induction x as [|c x IH]; intros a Ha E.
  - destruct a as [|d a]; [by exists [], y|]. cbn in E. injection E as -> _.
    by apply not_elem_of_cons in Ha as [].
  - destruct a as [|d a]; [by exists (c :: x), y|]. cbn in E. injection E as -> E.
    apply not_elem_of_cons in Ha as [_ Ha]. by apply (IH a).
Qed.
Lemma endpoint_clean e : endpoint_fits e -> clean (show_endpoint e).
Proof.
  destruct e as [h p]. intros (H58 & [H61 Hd] & Hp). unfold show_endpoint. cbn [fst snd] in *.
  split; [nochars|]. intros D. change (h ++ txt ":" ++ dec p) with (h ++ ([58] ++ dec p)) in D.
  destruct D as (x & y & E). revert x E.
  enough (G : forall x, h ++ [58] ++ dec p <> x ++ txt "--" ++ y) by (intros x E; by apply (G x)).
  intros x E. clear H58 H61. revert x E. induction h as [|c h IH]; intros x E.
  - assert (Q : 45 ∉ [58] ++ dec p) by (apply no_app; [apply (no_char_txt 45 ":"); reflexivity|by apply no_char_dec]).
    cbn [app] in E. change (58 :: dec p) with ([58] ++ dec p) in E. rewrite E in Q. apply Q.
    rewrite elem_of_app. right. apply elem_of_cons. by left.
  - destruct x as [|d x].
    + cbn in E. injection E as -> E. destruct h as [|d h].
      * cbn in E. discriminate E.
      * injection E as -> _. apply Hd. by exists [], h.
    + cbn in E. injection E as -> E. apply (IH) with x; [|exact E].
      intros (u & v & ->). apply Hd. by exists (d :: u), v.
Qed.

Lemma assoc_unique {A B} (l : list (A * B)) k a b : NoDup (map fst l) ->
  In (k, a) l -> In (k, b) l -> a = b.
Proof.
  induction l as [|[k' c] l IH]; [done|]. cbn [map fst In]. intros [N1 N2]%NoDup_cons H H'.
  assert (Q : forall x, In (k', x) l -> False).
  { intros x Hx. apply N1, elem_of_list_In. apply (in_map fst) in Hx. exact Hx. }
  destruct H as [H|H], H' as [H'|H'].
  - congruence.
  - injection H as -> ->. by destruct (Q b).
  - injection H' as -> ->. by destruct (Q a).
  - by apply IH.
Qed.

Section Round.
Context {D : Type} (stod : string -> option D) (zero : D).
Context (d : deployment (D := D)).
Hypothesis Hfit : fits stod d.
Hypothesis Hsmall : small_clusters d.

Lemma says_ok n v : says d n v -> ok_name n.
Proof.
  destruct n as [w|i|i|i j|i]; cbn [says ok_name]; try done.
  - intros H. unfold words in H. cbn [In] in H.
    repeat (destruct H as [[= <- _]|H]; [by apply no_digits_txt|]). done.
  - intros (c & e & Hc & He & _). unfold small_clusters in Hsmall. rewrite Forall_lookup in Hsmall.
    specialize (Hsmall _ _ Hc). apply lookup_lt_Some in He. cbn in Hsmall. lia.
Qed.

Lemma says_fun n v v' : says d n v -> says d n v' -> v = v'.
Proof.
  destruct n as [w|i|i|i j|i]; cbn [says].
  - intros H H'. enough (E : Some v = Some v') by congruence.
    eapply (assoc_unique (words d)); [|exact H|exact H'].
    change (map fst (words d)) with
      ["component_id"; "node_id"; "loglevel"; "ticket_machine_count"; "shard_count";
       "agent_count"; "loadgen_txtype"; "contention_rate"; "loadgen_accounts";
       "runner_type"]%string.
    repeat (apply NoDup_cons; split; [rewrite elem_of_list_In; cbn [In]; intuition discriminate|]).
    by apply NoDup_nil.
  - intros (e & H & ->) (e' & H' & ->). congruence.
  - intros (e & H & ->) (e' & H' & ->). congruence.
  - intros (c & e & Hc & H & ->) (c' & e' & Hc' & H' & ->). congruence.
  - intros (e & H & ->) (e' & H' & ->). congruence.
Qed.

Lemma dec_clean n : clean (dec n).
Proof. apply clean_nodash; by apply no_char_dec. Qed.
Lemma txt_clean s : forallb (fun x => negb (x =? 61)) (txt s) = true ->
  forallb (fun x => negb (x =? 45)) (txt s) = true -> clean (txt s).
Proof. intros. apply clean_nodash; by apply no_char_txt. Qed.

Lemma says_clean n v : says d n v -> clean v.
Proof.
  destruct Hfit as (_ & _ & _ & Hr & [_ Ht] & [_ Ha] & _ & Hs).
  pose proof (proj1 (Forall_lookup _ _) Ht) as Ht'. pose proof (proj1 (Forall_lookup _ _) Ha) as Ha'.
  pose proof (proj1 (Forall_lookup _ _) Hs) as Hs'.
  destruct n as [w|i|i|i j|i]; cbn [says].
  - unfold words. cbn [In]. intros H. unfold size in H.
    repeat (destruct H as [[= <- E]|H]; [|]); try done; revert E;
      try (intros <-; apply dec_clean);
      try (intros [? [_ ->]]%fmap_Some; apply dec_clean).
    + intros [l [_ ->]]%fmap_Some. destruct l; by apply txt_clean.
    + intros [l [_ ->]]%fmap_Some. destruct l; by apply txt_clean.
    + intros [[t x] [E ->]]%fmap_Some. by apply (Hr t x).
    + intros [l [_ ->]]%fmap_Some. destruct l; by apply txt_clean.
  - intros (e & H & ->). by apply endpoint_clean, (Ht' (N.to_nat i)).
  - intros (e & H & ->). apply dec_clean.
  - intros (c & e & Hc & H & ->). destruct (Hs' _ _ Hc) as [_ F]. rewrite Forall_lookup in F.
    by apply endpoint_clean, (F (N.to_nat j)).
  - intros (e & H & ->). by apply endpoint_clean, (Ha' (N.to_nat i)).
Qed.
Lemma spelled_plain n v : says d n v -> 61 ∉ spelled n /\ 45 ∉ spelled n.
Proof.
  destruct n as [w|i|i|i j|i]; cbn [says spelled].
  - unfold words. cbn [In]. intros H.
    repeat (destruct H as [[= <- _]|H]; [split; by apply no_char_txt|]). done.
  - intros _. split; nochars.
  - intros _. split; nochars.
  - intros _. split; nochars.
  - intros _. split; nochars.
Qed.

Lemma says_setting n v : says d n v -> setting (shown (spelled n) v) (spelled n) v.
Proof.
  intros H. destruct (spelled_plain _ _ H) as [N1 N2]. destruct (says_clean _ _ H) as [C1 C2].
  split; [done|]. split; [done|]. split; [done|]. rewrite app_assoc. intros Q.
  apply dashes_after in Q; [done|]. apply no_app; [done|by apply no_char_txt].
Qed.

Lemma written_parse args p : written d args -> exists o, parse_args (p :: args) = Some o /\
  forall k v, In (k, v) o <-> exists n, says d n v /\ k = spelled n.
Proof.
  intros [W1 W2].
  assert (G : forall l, (forall a, In a l -> In a args) -> exists o : opts,
    Forall2 (fun a e => setting a e.1 e.2 /\
      exists n, says d n e.2 /\ e.1 = spelled n /\ a = shown (spelled n) e.2) l o).
  { induction l as [|a l IH]; intros Hl; [by exists []|].
    destruct IH as [o Ho]; [intros x Hx; apply Hl; by right|].
    destruct (W1 a) as (n & v & Hs & ->); [apply Hl; by left|].
    exists ((spelled n, v) :: o). constructor; [|done]. cbn [fst snd].
    split; [by apply says_setting|]. by exists n. }
  destruct (G args) as [o Ho]; [done|]. exists o. split.
  - apply parse_args_settings. eapply Forall2_impl; [exact Ho|]. by intros a e [? _].
  - intros k v. split.
    + intros H. apply elem_of_list_In, elem_of_list_lookup in H as [i Hi].
      destruct (Forall2_lookup_r _ _ _ _ _ Ho Hi) as (a & _ & _ & n & Hs & Hk & _).
      by exists n.
    + intros (n & Hs & ->). specialize (W2 _ _ Hs).
      apply elem_of_list_In, elem_of_list_lookup in W2 as [i Hi].
      destruct (Forall2_lookup_l _ _ _ _ _ Ho Hi) as ([k' v'] & He & Hset & n' & Hs' & Hk & Ha).
      cbn [fst snd] in *. destruct (spelled_plain _ _ Hs) as [P _].
      destruct (spelled_plain _ _ Hs') as [P' _].
      apply shown_inj in Ha as [E ->]; [|done..]. rewrite E, <- Hk.
      apply elem_of_list_In. by eapply elem_of_list_lookup_2.
Qed.

Lemma find_in (o : opts) k v : find_opt k o = Some v -> In (k, v) o.
Proof.
  induction o as [|[k' v'] o IH]; [done|]. rewrite find_cons. cbn [fst snd].
  case_bool_decide as E; [intros [= ->]; left; by subst|]. intros H. right. by apply IH.
Qed.
Lemma find_none (o : opts) k v : find_opt k o = None -> ~ In (k, v) o.
Proof.
  induction o as [|[k' v'] o IH]; [intros _ []|]. rewrite find_cons. cbn [fst snd].
  case_bool_decide as E; [done|]. intros H [Q|Q]; [congruence|by apply IH].
Qed.

Section Read.
Context (o : opts).
Hypothesis Ho : forall k v, In (k, v) o <-> exists n, says d n v /\ k = spelled n.

Lemma find_said n v : says d n v -> find_opt (spelled n) o = Some v.
Proof.
  intros H. destruct (find_opt (spelled n) o) as [v'|] eqn:E.
  - apply find_in, Ho in E as (n' & Hs & E).
    apply spelled_inj in E; [|by eapply says_ok|by eapply says_ok]. subst n'.
    f_equal. by eapply says_fun.
  - exfalso. eapply find_none; [exact E|]. apply Ho. by exists n.
Qed.
Lemma find_unsaid n : ok_name n -> (forall v, ~ says d n v) -> find_opt (spelled n) o = None.
Proof.
  intros On H. destruct (find_opt (spelled n) o) as [v|] eqn:E; [|done].
  exfalso. apply find_in, Ho in E as (n' & Hs & E).
  apply spelled_inj in E; [|done|by eapply says_ok]. subst n'. by apply (H v).
Qed.

Lemma find_word w x : no_digits (txt w) -> In (w, x) (words d) -> find_opt (txt w) o = x.
Proof.
  intros Hw H. change (txt w) with (spelled (Word w)). destruct x as [v|].
  - by apply find_said.
  - apply find_unsaid; [done|]. intros v Q. cbn [says] in Q.
    enough (E : None = Some v) by discriminate.
    eapply (assoc_unique (words d)); [|exact H|exact Q].
    change (map fst (words d)) with
      ["component_id"; "node_id"; "loglevel"; "ticket_machine_count"; "shard_count";
       "agent_count"; "loadgen_txtype"; "contention_rate"; "loadgen_accounts";
       "runner_type"]%string.
    repeat (apply NoDup_cons; split; [rewrite elem_of_list_In; cbn [In]; intuition discriminate|]).
    by apply NoDup_nil.
Qed.

Lemma endpoint_back e : endpoint_fits e -> parse_ip_port (show_endpoint e) = Val e.
Proof. destruct e as [h p]. intros (H & _ & P). by apply endpoint_read. Qed.

Lemma endpoints_back name l i : Forall endpoint_fits l ->
  (forall j e, l !! j = Some e ->
     find_opt (name ++ dec (i + N.of_nat j) ++ txt "_endpoint") o = Some (show_endpoint e)) ->
  endpoints_from o name (length l) i = Val (Some l).
Proof.
  intros F. revert i. induction F as [|e l He F IH]; intros i H; [done|].
  cbn [length endpoints_from]. pose proof (H O e eq_refl) as H0. rewrite N.add_0_r in H0.
  rewrite H0, endpoint_back by done. cbn [obind]. rewrite IH; [done|].
  intros j e' Hj. specialize (H (S j) e' Hj).
  by replace (i + 1 + N.of_nat j) with (i + N.of_nat (S j)) by lia.
Qed.

Lemma read_back name l : list_fits l ->
  find_opt (name ++ txt "_count") o = Some (size l) ->
  (forall j e, l !! j = Some e ->
     find_opt (name ++ dec (N.of_nat j) ++ txt "_endpoint") o = Some (show_endpoint e)) ->
  read_endpoints o name = Val (Some l).
Proof.
  intros [L F] Hc He. unfold read_endpoints. rewrite Hc. unfold size.
  rewrite stoull_dec by exact L. cbn [obind]. rewrite Nat2N.id. by apply endpoints_back.
Qed.

Lemma clusters_back l i : Forall list_fits l ->
  (forall j c, l !! j = Some c -> d_shards d !! (N.to_nat i + j)%nat = Some c) ->
  clusters_from o (txt "shard") (length l) i = Val (Some l).
Proof.
  intros F. revert i. induction F as [|c l Hc F IH]; intros i H; [done|].
  cbn [length clusters_from]. pose proof (H O c eq_refl) as H0. rewrite Nat.add_0_r in H0.
  rewrite (read_back (txt "shard" ++ dec i) c); [|done| |].
  - cbn [obind]. rewrite IH; [done|]. intros j c' Hj. specialize (H (S j) c' Hj).
    by replace (N.to_nat (i + 1) + j)%nat with (N.to_nat i + S j)%nat by lia.
  - rewrite <- app_assoc. apply (find_said (ShardSize i)). by exists c.
  - intros j e Hj. rewrite <- app_assoc. apply (find_said (ShardNode i (N.of_nat j))).
    exists c, e. rewrite Nat2N.id. done.
Qed.

Lemma optional_back {A} w x (dflt : A) f a : no_digits (txt w) -> In (w, x) (words d) ->
  match x with Some t => f t = Val (Some a) | None => a = dflt end ->
  optional o (txt w) dflt f = Val (Some a).
Proof.
  intros Hw Hi H. unfold optional. rewrite (find_word w x Hw Hi). destruct x; [done|by subst].
Qed.
End Read.

Lemma some_or_some {A B} (m : outcome (option A)) (f : A -> outcome (option B)) a :
  m = Val (Some a) -> some_or m f = f a.
Proof. by intros ->. Qed.

Theorem round_trip p args : written d args ->
  read_config stod zero (p :: args) = Val (Some (meaning zero d)).
Proof.
  intros W. destruct (written_parse args p W) as (o & Hp & Ho). unfold read_config. rewrite Hp.
  destruct Hfit as (F1 & F2 & F3 & F4 & F5 & F6 & F7 & F8).
  assert (W1 : In ("component_id"%string, Some (dec (d_component d))) (words d)) by (cbn; tauto).
  rewrite (find_word o Ho _ _ (no_digits_txt "component_id" eq_refl) W1).
  rewrite stoull_dec by exact F1. cbn [obind].
  rewrite (some_or_some _ _ (default LTrace (d_log d))).
  2: { eapply (optional_back o Ho "loglevel"%string); [by apply no_digits_txt| |].
       - right; right; left. reflexivity.
       - destruct (d_log d) as [[]|]; reflexivity. }
  rewrite (some_or_some _ _ (d_tickets d)).
  2: { apply read_back; [done| |].
       - apply (find_word o Ho "ticket_machine_count"); [by apply no_digits_txt|]. cbn; tauto.
       - intros j e Hj. apply (find_said o Ho (TicketMachine (N.of_nat j))). exists e.
         by rewrite Nat2N.id. }
  rewrite (some_or_some _ _ (d_node d)).
  2: { eapply (optional_back o Ho "node_id"%string); [by apply no_digits_txt| |].
       - right; left. reflexivity.
       - destruct (d_node d) as [n|] eqn:E; [|done]. cbn [fmap option_fmap option_map].
         rewrite stoull_dec by (by apply F2). reflexivity. }
  rewrite (some_or_some _ _ (d_shards d)).
  2: { unfold read_cluster_endpoints.
       assert (W2 : In ("shard_count"%string, Some (size (d_shards d))) (words d)) by (cbn; tauto).
       change (txt "shard" ++ txt "_count") with (txt "shard_count").
       rewrite (find_word o Ho _ _ (no_digits_txt "shard_count" eq_refl) W2).
       unfold size. rewrite stoull_dec by exact F7. cbn [obind]. rewrite Nat2N.id.
       by apply (clusters_back o Ho). }
  rewrite (some_or_some _ _ (d_agents d)).
  2: { apply read_back; [done| |].
       - apply (find_word o Ho "agent_count"); [by apply no_digits_txt|]. cbn; tauto.
       - intros j e Hj. apply (find_said o Ho (Agent (N.of_nat j))). exists e.
         by rewrite Nat2N.id. }
  rewrite (some_or_some _ _ (default Transfer (d_load d))).
  2: { eapply (optional_back o Ho "loadgen_txtype"%string); [by apply no_digits_txt| |].
       - do 6 right; left. reflexivity.
       - destruct (d_load d) as [[]|]; reflexivity. }
  rewrite (some_or_some _ _ (default zero (snd <$> d_rate d))).
  2: { eapply (optional_back o Ho "contention_rate"%string); [by apply no_digits_txt| |].
       - do 7 right; left. reflexivity.
       - destruct (d_rate d) as [[t x]|] eqn:E; [|done]. cbn [fmap option_fmap option_map fst].
         destruct (F4 t x eq_refl) as [_ ->]. reflexivity. }
  rewrite (some_or_some _ _ (default 1000 (d_accounts d))).
  2: { eapply (optional_back o Ho "loadgen_accounts"%string); [by apply no_digits_txt| |].
       - do 8 right; left. reflexivity.
       - destruct (d_accounts d) as [n|] eqn:E; [|done]. cbn [fmap option_fmap option_map].
         rewrite stoull_dec by (by apply F3). reflexivity. }
  rewrite (some_or_some _ _ (default Evm (d_runner d))).
  2: { eapply (optional_back o Ho "runner_type"%string); [by apply no_digits_txt| |].
       - do 9 right; left. reflexivity.
       - destruct (d_runner d) as [[]|]; reflexivity. }
  reflexivity.
Qed.
End Round.
