(** Proofs about configuration files: reading them back and what the options mean. *)
From Coq Require Import NArith ZArith Ascii String Lia.
From stdpp Require Import base option list.
From Verif Require Import Base HexModel ConfigModel ConfigSpec ConfigText.
Open Scope N_scope.

(** * Outcomes *)
Lemma obind_val {A B} (m : outcome A) (f : A -> outcome B) b :
  obind m f = Val b <-> exists a, m = Val a /\ f a = Val b.
Proof.
  destruct m; cbn; split; try discriminate; try (by intros (? & ? & ?)).
  - intros H. by exists a.
  - intros (? & [= <-] & H). done.
Qed.
Lemma obind_bad {A B} (m : outcome A) (f : A -> outcome B) e :
  obind m f = Bad e <-> m = Bad e \/ exists a, m = Val a /\ f a = Bad e.
Proof.
  destruct m; cbn; split; try discriminate; try (by intros [?|(? & ? & ?)]).
  - intros H. right. by exists a.
  - intros [H|(? & [= <-] & H)]; done.
  - intros [= ->]. by left.
  - intros [[= ->]|(? & ? & ?)]; done.
Qed.

Section Config.
Context {D : Type} (stod : string -> option D) (zero one : D).
Context (env : string -> option string).
Implicit Types (p : parser (D := D)) (o : options (D := D)).

(** * Reading a file back *)

Lemma lit_value v : match v with Text s => True | Number n => n < two64 end ->
  parse_value stod (show_lit v) = Val (match v with Text s => VStr s | Number n => VNum n end) /\
  show_lit v <> [].
Proof.
  destruct v as [s|n]; intros H; cbn [show_lit].
  - change (txt """") with [34]. cbn [app]. split; [|done].
    cbn [parse_value]. replace (34 =? 34) with true by reflexivity. cbn [negb andb].
    f_equal. f_equal. cbn [List.length]. rewrite app_length. cbn [List.length].
    replace (S (length s + 1) - 2)%nat with (length s) by lia.
    by rewrite firstn_app, firstn_all, Nat.sub_diag, app_nil_r.
  - split; [|apply dec_not_nil].
    pose proof (dec_not_nil n) as N. pose proof (dec_digits_of n) as F.
    assert (Q : forall c, is_digit c = true -> (c =? 34) = false).
    { intros c Hc. apply N.eqb_neq. apply digit_range in Hc. lia. }
    unfold parse_value. pose proof (stoull_dec n H) as R.
    destruct (exists_last N) as (l & x & E).
    assert (Lx : is_digit x = true).
    { rewrite E in F. apply Forall_app in F as [_ F]. by apply Forall_cons in F as [F _]. }
    assert (L : List.last (dec n) 0 = x) by (rewrite E; apply last_last).
    assert (P : existsb (N.eqb 46) (dec n) = false).
    { destruct (existsb _ _) eqn:X; [|done]. apply existsb_exists in X as (c & Hc & X).
      apply N.eqb_eq in X. subst c. apply elem_of_list_In in Hc.
      by apply (digits_without 46 (dec n)) in Hc. }
    destruct (dec n) as [|c r] eqn:Ed; [done|].
    apply Forall_cons in F as [Fc _].
    rewrite L, (Q c Fc), (Q x Lx). cbn [negb andb].
    by rewrite P, R.
Qed.

Lemma find_app k p1 p2 :
  find k (p1 ++ p2) = match find k p1 with Some v => Some v | None => find k p2 end.
Proof.
  unfold find. induction p1 as [|e p1 IH]; [done|]. cbn [app List.find].
  case_bool_decide; [done|]. exact IH.
Qed.
Lemma find_one k k' v : find k [(k', v)] = if bool_decide (k' = k) then Some v else None (A := value (D := D)).
Proof. unfold find. cbn. by case_bool_decide. Qed.

Lemma find_emplace k p k' v :
  find k (emplace p k' v) = match find k p with
                            | Some x => Some x
                            | None => if bool_decide (k' = k) then Some v else None
                            end.
Proof.
  unfold emplace. destruct (find k' p) eqn:E.
  - destruct (find k p) eqn:F; [done|]. case_bool_decide; [|done]. congruence.
  - by rewrite find_app, find_one.
Qed.

Definition lit_v (v : lit) : value (D := D) :=
  match v with Text s => VStr s | Number n => VNum n end.

Lemma init_entry p e : writable e ->
  init_line stod p (show_entry e) = Val (match e with
                                         | Setting k v => emplace p k (lit_v v)
                                         | Other _ => p
                                         end).
Proof.
  unfold init_line. destruct e as [k v|l]; cbn [writable show_entry].
  - intros (Hk & _ & Hv). change (txt "=") with [61]. cbn [app].
    rewrite getline_app by done.
    destruct (lit_value v) as [V N]; [by destruct v|].
    rewrite V. by destruct (show_lit v).
  - intros (Hl & _). destruct l as [|c l]; [done|].
    by rewrite getline_none.
Qed.

Lemma lines_show es : Forall writable es -> lines (show es) = map show_entry es.
Proof.
  induction es as [|e es IH]; intros F; [done|].
  apply Forall_cons in F as [He F]. unfold show in *. cbn [map concat].
  rewrite <- app_assoc, lines_app, IH; [done|done|].
  destruct e as [k v|l]; cbn [show_entry]; [|apply He].
  destruct He as (_ & Hk & Hv). rewrite !elem_of_app. intros [Q|[Q|Q]]; [done| |].
  - change (txt "=") with [61] in Q. apply elem_of_list_singleton in Q. discriminate Q.
  - destruct v as [s|n]; cbn [show_lit] in Q.
    + change (txt """") with [34] in Q. rewrite !elem_of_app, elem_of_list_singleton in Q.
      destruct Q as [Q|[Q|Q]]; [discriminate|done|discriminate].
    + by apply (digits_without 10 (dec n)) in Q; [|reflexivity|apply dec_digits_of].
Qed.

Lemma init_entries es p : Forall writable es ->
  exists q, init_lines stod p (map show_entry es) = Val q /\
  forall k, find k q = match find k p with Some v => Some v | None => lit_v <$> setting_of es k end.
Proof.
  revert p; induction es as [|e es IH]; intros p F.
  - exists p. split; [done|]. intros k. cbn. by destruct (find k p).
  - apply Forall_cons in F as [He F]. cbn [map init_lines]. rewrite init_entry by done.
    cbn [obind]. destruct (IH (match e with
      | Setting k v => emplace p k (lit_v v) | Other _ => p end) F) as (q & Q & H).
    exists q. split; [done|]. intros k. rewrite H. destruct e as [k' v|l]; [|done].
    rewrite find_emplace. cbn [setting_of]. destruct (find k p); [done|].
    by case_bool_decide.
Qed.

Lemma read_back es : Forall writable es ->
  exists p, init stod (show es) = Val p /\
  forall k, env (upper k) = None ->
    get_string stod env p k = Val (text_of (setting_of es k)) /\
    get_ulong stod env p k = Val (number_of (setting_of es k)).
Proof.
  intros F. unfold init. rewrite lines_show by done.
  destruct (init_entries es [] F) as (q & Q & H). exists q. split; [done|].
  intros k E. unfold get_string, get_ulong, find_or_env. rewrite E, H. cbn [obind].
  change (find k []) with (@None (value (D := D))).
  by destruct (setting_of es k) as [[s|n]|].
Qed.

(** The environment comes first. *)
Lemma env_wins p k v : match v with Text s => True | Number n => n < two64 end ->
  env (upper k) = Some (show_lit v) ->
  get_string stod env p k = Val (text_of (Some v)) /\
  get_ulong stod env p k = Val (number_of (Some v)).
Proof.
  intros H E. destruct (lit_value v H) as [V _].
  unfold get_string, get_ulong, find_or_env. rewrite E, V. by destruct v.
Qed.

(** * Loops *)
Lemma each_val {A} (f : N -> outcome A) n i l : each f n i = Val l ->
  length l = n /\ forall j a, l !! j = Some a -> f (i + N.of_nat j) = Val a.
Proof.
  revert i l; induction n as [|n IH]; intros i l.
  - intros [= <-]. by split.
  - cbn [each]. rewrite obind_val. intros (a & Ha & H).
    apply obind_val in H as (l' & Hl & [= <-]).
    destruct (IH _ _ Hl) as [L R]. split; [cbn; congruence|].
    intros [|j] b; cbn; [intros [= <-]; by rewrite N.add_0_r|].
    intros Hb. rewrite <- (R j b Hb). f_equal. lia.
Qed.

Lemma upto_val {A} n (f : N -> outcome A) l : upto n f = Val l ->
  N.of_nat (length l) = n /\ forall j a, l !! j = Some a -> f (N.of_nat j) = Val a.
Proof.
  unfold upto. intros H. apply each_val in H as [L R]. split; [lia|].
  intros j a Ha. rewrite <- (R j a Ha). f_equal.
Qed.

(** The elements of a list that was read, seen through [g]. *)
Lemma listed_map {A B} n (f : N -> outcome A) l (g : A -> B) (R : N -> B -> Prop) :
  upto n f = Val l -> (forall i a, f i = Val a -> R i (g a)) -> listed n R (map g l).
Proof.
  intros H HR. apply upto_val in H as [L H]. split; [by rewrite map_length|].
  intros i b Hb. change (map g l) with (g <$> l) in Hb. rewrite list_lookup_fmap in Hb.
  destruct (l !! i) eqn:E; cbn in Hb; [|discriminate]. injection Hb as <-.
  by apply HR, H.
Qed.

Lemma each_bad {A} (f : N -> outcome A) n i e : each f n i = Bad e ->
  exists j, i <= j < i + N.of_nat n /\ f j = Bad e.
Proof.
  revert i; induction n as [|n IH]; intros i; [discriminate|]. cbn [each].
  rewrite obind_bad. intros [H|(a & Ha & H)].
  - exists i. split; [lia|done].
  - apply obind_bad in H as [H|(l & _ & [=])].
    destruct (IH _ H) as (j & Hj & E). exists j. split; [lia|done].
Qed.
Lemma upto_bad {A} n (f : N -> outcome A) e : upto n f = Bad e -> exists j, j < n /\ f j = Bad e.
Proof. intros H. apply each_bad in H as (j & Hj & E). exists j. split; [lia|done]. Qed.

(** * Settings *)
Lemma required_val {A} k (m : outcome (option A)) a : required k m = Val a <-> m = Val (Some a).
Proof.
  unfold required. rewrite obind_val. split.
  - intros ([x|] & -> & H); [|discriminate]. congruence.
  - intros ->. by exists (Some a).
Qed.
Lemma required_bad {A} k (m : outcome (option A)) e :
  required k m = Bad e -> m = Bad e \/ m = Val None /\ e = Missing k.
Proof.
  unfold required. rewrite obind_bad. intros [H|([x|] & -> & H)]; [by left|discriminate|].
  right. split; [done|congruence].
Qed.

Lemma ulong_or_val p k d x n : k = spelled n -> ulong_or stod env p k d = Val x ->
  number_or stod env p n d x.
Proof.
  intros -> H. apply obind_val in H as (y & Hy & [= <-]). by exists y.
Qed.
Lemma decimal_or_val p k d x n : k = spelled n -> value_or d (get_decimal stod env p k) = Val x ->
  decimal_or stod env p n d x.
Proof.
  intros -> H. apply obind_val in H as (y & Hy & [= <-]). by exists y.
Qed.
Lemma endpoint_val p k e n : k = spelled n -> required k (get_endpoint stod env p k) = Val e ->
  endpoint_is stod env p n e.
Proof.
  intros -> H. apply required_val in H. apply obind_val in H as ([s|] & Hs & H); [|discriminate].
  apply obind_val in H as (x & Hx & [= <-]). by exists s.
Qed.
Lemma text_val p k s n : k = spelled n -> required k (get_string stod env p k) = Val s ->
  text_is stod env p n s.
Proof. intros -> H. by apply required_val in H. Qed.
Lemma number_val p k x n : k = spelled n -> required k (get_ulong stod env p k) = Val x ->
  number_is stod env p n x.
Proof. intros -> H. by apply required_val in H. Qed.
Lemma log_val p k l n : k = spelled n -> loglevel stod env p k = Val l -> log_is stod env p n l.
Proof.
  intros -> H. apply obind_val in H as (y & Hy & [= <-]). exists y. split; [done|].
  destruct y as [s|]; [|by right]. cbn [mbind option_bind]. unfold parse_loglevel, level_names.
  repeat (case_bool_decide; [left; exists s; subst s; split; [done|]; cbn; tauto|]).
  right. split; [done|]. intros s' l' [= <-] I. cbn [In] in I.
  repeat (destruct I as [[= <- <-]|I]; [contradiction|]). exact I.
Qed.
Lemma hex_val s b : key_of_hex s = Val b -> hash_from_hex s = HashIs b.
Proof. unfold key_of_hex. destruct (hash_from_hex s); try discriminate. congruence. Qed.

(** None of the getters returns an error. *)
Lemma stoull_bad s e : stoull s <> Bad e.
Proof.
  unfold stoull. destruct (skip_space s) as [|c r]; [done|].
  repeat case_match; discriminate.
Qed.
Lemma parse_value_bad s e : parse_value stod s <> Bad e.
Proof.
  unfold parse_value. repeat case_match; try discriminate.
  rewrite obind_bad. intros [Q|(? & ? & ?)]; [by apply stoull_bad in Q|discriminate].
Qed.
Lemma find_or_env_bad p k e : find_or_env stod env p k <> Bad e.
Proof.
  unfold find_or_env. case_match; [|discriminate].
  rewrite obind_bad. intros [Q|(? & ? & ?)]; [by apply parse_value_bad in Q|discriminate].
Qed.
Lemma get_string_bad p k e : get_string stod env p k <> Bad e.
Proof.
  unfold get_string. rewrite obind_bad. intros [Q|(? & ? & ?)]; [by apply find_or_env_bad in Q|discriminate].
Qed.
Lemma get_ulong_bad p k e : get_ulong stod env p k <> Bad e.
Proof.
  unfold get_ulong. rewrite obind_bad. intros [Q|(? & ? & ?)]; [by apply find_or_env_bad in Q|discriminate].
Qed.
Lemma get_decimal_bad p k e : get_decimal stod env p k <> Bad e.
Proof.
  unfold get_decimal. rewrite obind_bad. intros [Q|(? & ? & ?)]; [by apply find_or_env_bad in Q|discriminate].
Qed.
Lemma parse_ip_port_bad s e : parse_ip_port s <> Bad e.
Proof.
  unfold parse_ip_port. repeat case_match; try discriminate.
  rewrite obind_bad. intros [Q|(? & ? & Q)]; [by apply stoull_bad in Q|].
  case_match; discriminate.
Qed.
Lemma get_endpoint_bad p k e : get_endpoint stod env p k <> Bad e.
Proof.
  unfold get_endpoint. rewrite obind_bad. intros [Q|(? & ? & Q)]; [by apply get_string_bad in Q|].
  case_match; [|discriminate].
  apply obind_bad in Q as [Q|(? & ? & ?)]; [by apply parse_ip_port_bad in Q|discriminate].
Qed.
Lemma loglevel_bad p k e : loglevel stod env p k <> Bad e.
Proof.
  unfold loglevel. rewrite obind_bad. intros [Q|(? & ? & ?)]; [by apply get_string_bad in Q|discriminate].
Qed.
Lemma ulong_or_bad p k d e : ulong_or stod env p k d <> Bad e.
Proof.
  unfold ulong_or, value_or. rewrite obind_bad.
  intros [Q|(? & ? & ?)]; [by apply get_ulong_bad in Q|discriminate].
Qed.
Lemma decimal_or_bad p k d e : value_or d (get_decimal stod env p k) <> Bad e.
Proof.
  unfold value_or. rewrite obind_bad.
  intros [Q|(? & ? & ?)]; [by apply get_decimal_bad in Q|discriminate].
Qed.
Lemma key_of_hex_bad s e : key_of_hex s <> Bad e.
Proof. unfold key_of_hex. by destruct (hash_from_hex s). Qed.
Lemma resize_bad n e : resize n <> Bad e.
Proof. unfold resize. by case_match. Qed.
Lemma init_bad file e : init stod file <> Bad e.
Proof.
  unfold init. generalize (@nil (string * value (D := D))).
  induction (lines file) as [|l ls IH]; intros p; [discriminate|]. cbn [init_lines].
  rewrite obind_bad. intros [Q|(p' & _ & Q)]; [|by apply IH in Q].
  unfold init_line in Q. repeat case_match; try discriminate.
  apply obind_bad in Q as [Q|(? & ? & ?)]; [by apply parse_value_bad in Q|discriminate].
Qed.

End Config.
