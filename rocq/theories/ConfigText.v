(** Facts about texts, numbers and names in configuration files. *)
From Coq Require Import NArith ZArith Ascii String Lia.
From stdpp Require Import base option list.
From Verif Require Import Base HexModel ConfigModel ConfigSpec.
Open Scope N_scope.

(** * Numbers *)

Lemma dec_digits_app fuel n acc : dec_digits fuel n acc = dec_digits fuel n [] ++ acc.
Proof.
  revert n acc; induction fuel as [|f IH]; intros n acc; [done|]. cbn [dec_digits].
  destruct (_ <? _); [done|]. rewrite (IH _ (_ :: acc)), (IH _ [_]). by rewrite <- app_assoc.
Qed.

Lemma digit_ok d : d < 10 -> is_digit (48 + d) = true.
Proof. intros H. unfold is_digit. apply andb_true_iff. split; apply N.leb_le; lia. Qed.

Lemma dec_digits_digits fuel n : Forall (fun c => is_digit c = true) (dec_digits fuel n []).
Proof.
  revert n; induction fuel as [|f IH]; intros n; cbn [dec_digits]; [by constructor|].
  assert (D : is_digit (48 + n mod 10) = true) by (apply digit_ok, N.mod_lt; lia).
  destruct (_ <? _).
  - by repeat constructor.
  - rewrite dec_digits_app. apply Forall_app. split; [apply IH|by repeat constructor].
Qed.

Lemma dec_digits_of n : Forall (fun c => is_digit c = true) (dec n).
Proof. apply dec_digits_digits. Qed.

Lemma dec_not_nil n : dec n <> [].
Proof.
  unfold dec. cbn [dec_digits]. destruct (_ <? _); [done|].
  rewrite dec_digits_app. intros H. apply app_eq_nil in H. by destruct H.
Qed.

(** Reading digits followed by something else. *)
Lemma read_dec_digits s r acc seen : Forall (fun c => is_digit c = true) s ->
  read_dec (s ++ r) acc seen = read_dec r (foldl (fun a c => 10 * a + (c - 48)) acc s)
                                 (match s with [] => seen | _ => true end).
Proof.
  revert acc seen; induction s as [|c s IH]; intros acc seen F; [done|].
  apply Forall_cons in F as [Hc F]. cbn [app read_dec foldl]. rewrite Hc, IH by done.
  by destruct s.
Qed.

Lemma dec_value fuel n : n < 2 ^ N.of_nat fuel ->
  foldl (fun a c => 10 * a + (c - 48)) 0 (dec_digits fuel n []) = n.
Proof.
  revert n; induction fuel as [|f IH]; intros n H.
  - cbn in *. lia.
  - cbn [dec_digits]. destruct (n <? 10) eqn:E.
    + apply N.ltb_lt in E. cbn [foldl]. rewrite N.mod_small by done. lia.
    + apply N.ltb_ge in E. rewrite dec_digits_app, foldl_app, IH.
      * cbn [foldl].
        rewrite (N.add_comm 48), N.add_sub. symmetry. apply N.div_mod. lia.
      * rewrite Nat2N.inj_succ, N.pow_succ_r' in H.
        apply N.div_lt_upper_bound; [lia|]. lia.
Qed.

Lemma dec_fold n : foldl (fun a c => 10 * a + (c - 48)) 0 (dec n) = n.
Proof.
  apply dec_value. rewrite Nat2N.inj_succ, N2Nat.id.
  destruct (N.eq_dec n 0) as [->|H]; [reflexivity|]. apply N.log2_spec. lia.
Qed.

Lemma dec_inj n m : dec n = dec m -> n = m.
Proof. intros H. rewrite <- (dec_fold n), <- (dec_fold m). by rewrite H. Qed.

Lemma digit_not_space c : is_digit c = true -> is_space c = false.
Proof.
  unfold is_digit, is_space. intros H. apply andb_true_iff in H as [A B].
  apply N.leb_le in A. apply N.leb_le in B.
  apply orb_false_iff. split; [apply N.eqb_neq; lia|].
  apply andb_false_iff. right. apply N.leb_gt. lia.
Qed.

Lemma digit_range c : is_digit c = true -> 48 <= c <= 57.
Proof.
  unfold is_digit. intros H. apply andb_true_iff in H as [A B].
  apply N.leb_le in A. apply N.leb_le in B. lia.
Qed.

(** Reading a number back. *)
Lemma stoull_dec n : n < two64 -> stoull (dec n) = Val n.
Proof.
  intros H. pose proof (dec_digits_of n) as F. pose proof (dec_not_nil n) as NN.
  pose proof (dec_fold n) as V.
  pose proof (read_dec_digits (dec n) [] 0 false F) as R. rewrite app_nil_r, V in R.
  unfold stoull.
  destruct (dec n) as [|c r] eqn:E; [done|].
  apply Forall_cons in F as [Hc F].
  pose proof (digit_range c Hc).
  cbn [skip_space]. rewrite (digit_not_space c Hc).
  replace (c =? 45) with false by (symmetry; apply N.eqb_neq; lia).
  replace (c =? 43) with false by (symmetry; apply N.eqb_neq; lia).
  rewrite R. cbn [read_dec].
  by replace (two64 <=? n) with false by (symmetry; apply N.leb_gt; done).
Qed.

(** * Lines *)

Lemma lines_app l s : 10 ∉ l -> lines (l ++ newline ++ s) = l :: lines s.
Proof.
  induction l as [|c l IH]; intros H; cbn [app lines newline].
  - done.
  - apply not_elem_of_cons in H as [Hc H].
    replace (c =? 10) with false by (symmetry; apply N.eqb_neq; congruence).
    specialize (IH H). cbn [app newline] in IH. by rewrite IH.
Qed.

Lemma lines_last l : 10 ∉ l -> l <> [] -> lines l = [l].
Proof.
  induction l as [|c l IH]; intros H N; [done|]. cbn [lines].
  apply not_elem_of_cons in H as [Hc H].
  replace (c =? 10) with false by (symmetry; apply N.eqb_neq; congruence).
  destruct l as [|d l]; [done|]. by rewrite IH.
Qed.

Lemma split_at_app d a b : d ∉ a -> split_at d (a ++ d :: b) = (a, b).
Proof.
  induction a as [|c a IH]; intros H; cbn [app split_at].
  - by rewrite N.eqb_refl.
  - apply not_elem_of_cons in H as [Hc H].
    replace (c =? d) with false by (symmetry; apply N.eqb_neq; congruence).
    by rewrite IH.
Qed.

Lemma split_at_none d a : d ∉ a -> split_at d a = (a, []).
Proof.
  induction a as [|c a IH]; intros H; cbn [split_at]; [done|].
  apply not_elem_of_cons in H as [Hc H].
  replace (c =? d) with false by (symmetry; apply N.eqb_neq; congruence).
  by rewrite IH.
Qed.

Lemma getline_app d a b : d ∉ a -> getline d (a ++ d :: b) = Some (a, b).
Proof. intros H. unfold getline. rewrite split_at_app by done. by destruct a. Qed.

Lemma getline_none d a : d ∉ a -> a <> [] -> getline d a = Some (a, []).
Proof. intros H N. unfold getline. rewrite split_at_none by done. by destruct a. Qed.

(** * Endpoints *)
Lemma digits_without c s : is_digit c = false -> Forall (fun c => is_digit c = true) s -> c ∉ s.
Proof.
  intros H F E. rewrite Forall_forall in F. specialize (F _ E). cbn in F. congruence.
Qed.

Lemma endpoint_read host port : 58 ∉ host -> port <= 65535 ->
  parse_ip_port (host ++ txt ":" ++ dec port) = Val (host, port).
Proof.
  intros H P. unfold parse_ip_port. change (txt ":") with [58]. cbn [app].
  rewrite getline_app by done.
  rewrite getline_none.
  - rewrite stoull_dec by (unfold two64; lia). cbn [obind].
    by replace (port <=? 65535) with true by (symmetry; apply N.leb_le; done).
  - apply digits_without; [reflexivity|apply dec_digits_of].
  - apply dec_not_nil.
Qed.

(** * Names *)

(** The part of a name before its first underscore, and the rest with it. *)
Fixpoint head (s : string) : string :=
  match s with
  | [] => []
  | c :: r => if c =? 95 then [] else c :: head r
  end.

Lemma head_app a b : 95 ∉ a -> head (a ++ 95 :: b) = a.
Proof.
  induction a as [|c a IH]; intros H; cbn [app head]; [done|].
  apply not_elem_of_cons in H as [Hc H].
  replace (c =? 95) with false by (symmetry; apply N.eqb_neq; congruence).
  by rewrite IH.
Qed.

Lemma split_underscore a b a' b' : 95 ∉ a -> 95 ∉ a' ->
  a ++ 95 :: b = a' ++ 95 :: b' -> a = a' /\ b = b'.
Proof.
  intros H H' E. assert (A : a = a').
  { rewrite <- (head_app a b H), <- (head_app a' b' H'). by rewrite E. }
  subst a'. split; [done|]. apply app_inv_head in E. congruence.
Qed.

(** A word without digits followed by digits. *)
Lemma split_digits a a' d d' :
  Forall (fun c => is_digit c = false) a -> Forall (fun c => is_digit c = false) a' ->
  Forall (fun c => is_digit c = true) d -> Forall (fun c => is_digit c = true) d' ->
  d <> [] -> d' <> [] -> a ++ d = a' ++ d' -> a = a' /\ d = d'.
Proof.
  intros Fa Fa' Fd Fd' N N' E.
  assert (G : forall a a', Forall (fun c => is_digit c = false) a ->
     Forall (fun c => is_digit c = false) a' -> a ++ d = a' ++ d' -> a = a').
  { clear a a' Fa Fa' E. induction a as [|c a IH]; intros [|c' a'] F F' E; [done| | |].
    - destruct d as [|x d]; [done|]. cbn in E. injection E as -> _.
      apply Forall_cons in F' as [F' _]. apply Forall_cons in Fd as [Fd _]. congruence.
    - destruct d' as [|x d']; [done|]. cbn in E. injection E as -> _.
      apply Forall_cons in F as [F _]. apply Forall_cons in Fd' as [Fd' _]. congruence.
    - cbn in E. injection E as -> E. f_equal.
      apply Forall_cons in F as [_ F]. apply Forall_cons in F' as [_ F']. by apply IH. }
  specialize (G _ _ Fa Fa' E). subst a'. split; [done|]. by apply app_inv_head in E.
Qed.

Definition wordb (s : string) : bool :=
  forallb (fun c => negb (is_digit c) && negb (c =? 95)) s.
Lemma word_digits s : wordb s = true -> Forall (fun c => is_digit c = false) s.
Proof.
  intros H. rewrite Forall_forall. intros c E. unfold wordb in H.
  rewrite forallb_forall in H. specialize (H c). rewrite <- elem_of_list_In in H.
  specialize (H E). apply andb_true_iff in H as [H _]. by apply negb_true_iff in H.
Qed.
Lemma word_underscore s : wordb s = true -> 95 ∉ s.
Proof.
  intros H E. unfold wordb in H. rewrite forallb_forall in H. specialize (H 95).
  rewrite <- elem_of_list_In in H. specialize (H E). discriminate H.
Qed.

Lemma numbered_split c i r c' i' r' : wordb c = true -> wordb c' = true ->
  c ++ dec i ++ 95 :: r = c' ++ dec i' ++ 95 :: r' -> c = c' /\ i = i' /\ r = r'.
Proof.
  intros W W' E. rewrite !app_assoc in E.
  assert (U : forall c i, wordb c = true -> 95 ∉ c ++ dec i).
  { intros x k X. rewrite elem_of_app. intros [Q|Q].
    - by apply (word_underscore x X).
    - by apply (digits_without 95 (dec k)) in Q; [|reflexivity|apply dec_digits_of]. }
  apply split_underscore in E as [E ->]; [|by apply U|by apply U].
  apply split_digits in E as [-> E]; [|by apply word_digits|by apply word_digits
    |apply dec_digits_of|apply dec_digits_of|apply dec_not_nil|apply dec_not_nil].
  apply dec_inj in E. by subst.
Qed.

Lemma txt_inj a b : txt a = txt b -> a = b.
Proof.
  unfold txt. revert b; induction a as [|x a IH]; intros [|y b]; cbn; try discriminate; [done|].
  intros E. injection E as E1 E2. f_equal; [|by apply IH].
  rewrite <- (ascii_N_embedding x), <- (ascii_N_embedding y). by rewrite E1.
Qed.

(** A plain name is never a numbered one: what stands before its first underscore does
    not end in a digit (or it has no underscore at all). *)
Definition ends_in_digit (s : string) : bool := is_digit (List.last s 0).
Definition plainb (s : string) : bool :=
  negb (existsb (N.eqb 95) s) || negb (ends_in_digit (head s)).

Lemma numbered_not_plain c i r : wordb c = true -> plainb (c ++ dec i ++ 95 :: r) = false.
Proof.
  intros W. unfold plainb. apply orb_false_iff. split.
  - apply negb_false_iff. apply existsb_exists. exists 95. split; [|reflexivity].
    apply elem_of_list_In. rewrite !elem_of_app. right. right. left.
  - apply negb_false_iff. rewrite app_assoc, head_app.
    + unfold ends_in_digit. pose proof (dec_not_nil i) as N. pose proof (dec_digits_of i) as F.
      destruct (exists_last N) as [l [x E]]. rewrite E, app_assoc, last_last.
      rewrite E in F. apply Forall_app in F as [_ F]. by apply Forall_cons in F as [F _].
    + rewrite elem_of_app. intros [Q|Q].
      * by apply (word_underscore c W).
      * by apply (digits_without 95 (dec i)) in Q; [|reflexivity|apply dec_digits_of].
Qed.

(** A numbered name's part after the number does not start with a digit if nothing of a
    node is meant. *)
Lemma node_not_numbered j w v : Forall (fun c => is_digit c = false) v ->
  dec j ++ 95 :: w = v -> False.
Proof.
  intros F <-. apply Forall_app in F as [F _]. pose proof (dec_digits_of j) as G.
  pose proof (dec_not_nil j) as N. destruct (dec j) as [|c d]; [done|].
  apply Forall_cons in F as [F _]. apply Forall_cons in G as [G _]. congruence.
Qed.

Definition nodigitb (s : string) : bool := forallb (fun c => negb (is_digit c)) s.
Lemma nodigit s : nodigitb s = true -> Forall (fun c => is_digit c = false) s.
Proof.
  intros H. rewrite Forall_forall. intros c E. unfold nodigitb in H.
  rewrite forallb_forall in H. specialize (H c). rewrite <- elem_of_list_In in H.
  specialize (H E). by apply negb_true_iff in H.
Qed.

Lemma plain_known k : k ∈ plain_names -> plainb (txt k) = true.
Proof.
  intros H. assert (A : forallb (fun k => plainb (txt k)) plain_names = true) by (vm_compute; reflexivity).
  rewrite forallb_forall in A. apply A. by apply elem_of_list_In.
Qed.
Lemma numbered_known c w : (c, w) ∈ numbered_names -> wordb (txt c) = true /\ nodigitb (txt w) = true.
Proof.
  intros H. assert (A : forallb (fun x => wordb (txt x.1) && nodigitb (txt x.2)) numbered_names = true)
    by (vm_compute; reflexivity).
  rewrite forallb_forall in A. apply andb_true_iff. apply (A (c, w)). by apply elem_of_list_In.
Qed.
Lemma node_known c w : (c, w) ∈ node_names -> wordb (txt c) = true /\ nodigitb (txt w) = true.
Proof.
  intros H. assert (A : forallb (fun x => wordb (txt x.1) && nodigitb (txt x.2)) node_names = true)
    by (vm_compute; reflexivity).
  rewrite forallb_forall in A. apply andb_true_iff. apply (A (c, w)). by apply elem_of_list_In.
Qed.

Lemma spelled_inj n m : known n -> known m -> spelled n = spelled m -> n = m.
Proof.
  change (txt "_") with [95].
  destruct n as [k|c i w|c i j w], m as [k'|c' i' w'|c' i' j' w']; cbn [known spelled app];
    change (txt "_") with [95]; cbn [app]; intros K K' E.
  - apply txt_inj in E. by subst.
  - apply plain_known in K. apply numbered_known in K' as [W _]. rewrite E in K.
    by rewrite numbered_not_plain in K.
  - apply plain_known in K. apply node_known in K' as [W _]. rewrite E in K.
    by rewrite numbered_not_plain in K.
  - apply plain_known in K'. apply numbered_known in K as [W _]. rewrite <- E in K'.
    by rewrite numbered_not_plain in K'.
  - apply numbered_known in K as [W _]. apply numbered_known in K' as [W' _].
    apply numbered_split in E as (E1 & -> & E2); [|done|done].
    apply txt_inj in E1. apply txt_inj in E2. by subst.
  - apply numbered_known in K as [W V]. apply node_known in K' as [W' _].
    apply numbered_split in E as (E1 & -> & E2); [|done|done].
    exfalso. apply (node_not_numbered j' (txt w') (txt w)); [by apply nodigit|done].
  - apply plain_known in K'. apply node_known in K as [W _]. rewrite <- E in K'.
    by rewrite numbered_not_plain in K'.
  - apply node_known in K as [W V]. apply numbered_known in K' as [W' V'].
    apply numbered_split in E as (E1 & -> & E2); [|done|done].
    exfalso. apply (node_not_numbered j (txt w) (txt w')); [by apply nodigit|done].
  - apply node_known in K as [W _]. apply node_known in K' as [W' _].
    apply numbered_split in E as (E1 & -> & E2); [|done|done].
    apply (numbered_split [] j (txt w) [] j' (txt w')) in E2 as (_ & -> & E2); [|done|done].
    apply txt_inj in E1. apply txt_inj in E2. by subst.
Qed.

(** The names in capitals, as the environment has them. *)
Definition no_capitalb (s : string) : bool := forallb (fun c => negb ((65 <=? c) && (c <=? 90))) s.
Lemma upper_inj a b : no_capitalb a = true -> no_capitalb b = true -> upper a = upper b -> a = b.
Proof.
  revert b; induction a as [|x a IH]; intros [|y b]; cbn; try discriminate; [done|].
  intros A B E. apply andb_true_iff in A as [A A']. apply andb_true_iff in B as [B B'].
  injection E as E1 E2. f_equal; [|by apply IH].
  apply negb_true_iff, andb_false_iff in A. apply negb_true_iff, andb_false_iff in B.
  rewrite !N.leb_gt in A, B. unfold upper_char in E1.
  destruct ((97 <=? x) && (x <=? 122)) eqn:X, ((97 <=? y) && (y <=? 122)) eqn:Y;
    try apply andb_true_iff in X as [X1 X2]; try apply andb_true_iff in Y as [Y1 Y2];
    try apply andb_false_iff in X; try apply andb_false_iff in Y;
    rewrite ?N.leb_gt, ?N.leb_le in *; lia.
Qed.

Lemma no_capital_app a b : no_capitalb (a ++ b) = no_capitalb a && no_capitalb b.
Proof. apply forallb_app. Qed.
Lemma dec_no_capital i : no_capitalb (dec i) = true.
Proof.
  unfold no_capitalb. apply forallb_forall. intros c H. apply elem_of_list_In in H.
  pose proof (dec_digits_of i) as F. rewrite Forall_forall in F. specialize (F c H).
  apply digit_range in F. apply negb_true_iff, andb_false_iff. left. apply N.leb_gt. lia.
Qed.

Lemma spelled_small n : known n -> no_capitalb (spelled n) = true.
Proof.
  destruct n as [k|c i w|c i j w]; cbn [known spelled]; intros K.
  - assert (A : forallb (fun k => no_capitalb (txt k)) plain_names = true) by (vm_compute; reflexivity).
    rewrite forallb_forall in A. apply A. by apply elem_of_list_In.
  - assert (A : forallb (fun x => no_capitalb (txt x.1) && no_capitalb (txt x.2)) numbered_names = true)
      by (vm_compute; reflexivity).
    rewrite forallb_forall in A. specialize (A (c, w)). rewrite <- elem_of_list_In in A.
    specialize (A K). apply andb_true_iff in A as [A B]. cbn [fst snd] in A, B.
    by rewrite !no_capital_app, A, B, dec_no_capital.
  - assert (A : forallb (fun x => no_capitalb (txt x.1) && no_capitalb (txt x.2)) node_names = true)
      by (vm_compute; reflexivity).
    rewrite forallb_forall in A. specialize (A (c, w)). rewrite <- elem_of_list_In in A.
    specialize (A K). apply andb_true_iff in A as [A B]. cbn [fst snd] in A, B.
    by rewrite !no_capital_app, A, B, !dec_no_capital.
Qed.

Lemma names_differ n m : known n -> known m ->
  spelled n = spelled m \/ upper (spelled n) = upper (spelled m) -> n = m.
Proof.
  intros K K' [E|E]; apply spelled_inj; [done|done|done|done|done|].
  apply upper_inj; [by apply spelled_small|by apply spelled_small|done].
Qed.
