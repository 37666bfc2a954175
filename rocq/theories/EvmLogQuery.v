(** Proofs for C84: the query as a whole. *)
From Coq Require Import NArith ZArith List Bool Lia ZifyBool ZifyNat ZifyN.
From stdpp Require Import gmap.
From Verif Require Import Base CodecModel CodecProofs MsgModel EvmLogModel EvmLogSpec EvmLogProofs.
Import ListNotations.
Open Scope N_scope.

(** ** Range *)

Lemma int64_small n : n < 2 ^ 63 -> int64 n = Z.of_N n.
Proof. intros H. unfold int64. apply N.ltb_lt in H. now rewrite H. Qed.

Lemma pow63 : 2 ^ 63 = 9223372036854775808. Proof. reflexivity. Qed.
Lemma pow64 : 2 ^ 64 = 18446744073709551616. Proof. reflexivity. Qed.

(** For small numbers the checks are the ones announced. *)
Lemma check_range_small q : q_from q < 2 ^ 63 -> q_to q < 2 ^ 63 ->
  (q_to q - q_from q) * len (q_addrs q) < 2 ^ 64 ->
  check_range q =
  if q_to q <? q_from q then FromAfterTo
  else if 100 <? (q_to q - q_from q) * len (q_addrs q) then TooLarge else Accepted.
Proof.
  intros F T P. unfold check_range. rewrite !int64_small by assumption.
  unfold fits_int64. rewrite pow63 in F, T.
  destruct ((- 2 ^ 63 <=? Z.of_N (q_to q) - Z.of_N (q_from q))
            && (Z.of_N (q_to q) - Z.of_N (q_from q) <? 2 ^ 63))%Z eqn:E.
  2:{ exfalso. change (2 ^ 63)%Z with 9223372036854775808%Z in E. lia. }
  cbn [negb]. clear E.
  destruct (N.ltb_spec (q_to q) (q_from q)) as [L|L].
  - rewrite (proj2 (Z.ltb_lt _ _)) by lia. reflexivity.
  - rewrite (proj2 (Z.ltb_ge _ _)) by lia.
    replace (Z.to_N (Z.of_N (q_to q) - Z.of_N (q_from q))) with (q_to q - q_from q) by lia.
    unfold mul64, wrap64. change two64 with (2 ^ 64). now rewrite N.mod_small.
Qed.

Definition blocks (from : N) (n : nat) : list N := map (fun i => from + N.of_nat i) (seq 0 n).

Lemma blocks_S from n : blocks from (S n) = from :: blocks (from + 1) n.
Proof.
  unfold blocks. cbn [seq map]. f_equal; [lia|]. rewrite <- seq_shift, map_map.
  apply map_ext. intros i. lia.
Qed.

Lemma block_loop_ends n from last : last < 2 ^ 63 ->
  from + N.of_nat n = last + 1 -> block_loop n from last = Some (blocks from n).
Proof.
  rewrite pow63. intros L. induction n as [|n IH] in from |- *; intros E; cbn [block_loop].
  - rewrite (proj2 (N.leb_gt _ _)) by lia. reflexivity.
  - rewrite (proj2 (N.leb_le _ _)) by lia.
    replace (add64 from 1) with (from + 1).
    2:{ unfold add64, wrap64, two64. rewrite N.mod_small by lia. reflexivity. }
    rewrite IH by lia. now rewrite blocks_S.
Qed.

Lemma blocks_elem from n b : b ∈ blocks from n <-> from <= b /\ b < from + N.of_nat n.
Proof.
  unfold blocks. rewrite elem_of_list_In, in_map_iff. split.
  - intros (i & <- & I). apply in_seq in I. lia.
  - intros [A B]. exists (N.to_nat (b - from)). split; [lia|]. apply in_seq. lia.
Qed.

Lemma blocks_nodup from n : NoDup (blocks from n).
Proof.
  induction n as [|n IH] in from |- *; [apply NoDup_nil_2|].
  rewrite blocks_S. apply NoDup_cons. split; [|apply IH].
  intros H. apply blocks_elem in H. lia.
Qed.

(** ** Sums *)

Lemma flat_map_perm {A B} (f g : A -> list B) l : (forall x, x ∈ l -> f x ≡ₚ g x) ->
  flat_map f l ≡ₚ flat_map g l.
Proof.
  induction l as [|x l IH]; intros H; [reflexivity|]. cbn [flat_map].
  rewrite (H x) by (apply elem_of_cons; now left). rewrite IH; [reflexivity|].
  intros y Y. apply H, elem_of_cons. now right.
Qed.
Lemma flat_map_nil {A B} (l : list A) : flat_map (fun _ => @nil B) l = [].
Proof. induction l; [reflexivity|exact IHl]. Qed.
Lemma flat_map_app_f {A B} (f g : A -> list B) l :
  flat_map (fun x => f x ++ g x) l ≡ₚ flat_map f l ++ flat_map g l.
Proof.
  induction l as [|x l IH]; [reflexivity|]. cbn [flat_map]. rewrite IH.
  rewrite <- !app_assoc. apply Permutation_app_head. rewrite !app_assoc.
  apply Permutation_app_tail. apply Permutation_app_comm.
Qed.
Lemma flat_map_swap {A B C} (f : A -> B -> list C) xs ys :
  flat_map (fun x => flat_map (f x) ys) xs ≡ₚ flat_map (fun y => flat_map (fun x => f x y) xs) ys.
Proof.
  induction xs as [|x xs IH]; cbn [flat_map].
  - now rewrite flat_map_nil.
  - rewrite IH. now rewrite flat_map_app_f.
Qed.
Lemma flat_map_pick {B} (f : N -> list B) k xs : NoDup xs ->
  flat_map (fun x => if k =? x then f x else []) xs = if decide (k ∈ xs) then f k else [].
Proof.
  induction xs as [|x xs IH]; intros ND; cbn [flat_map].
  - rewrite decide_False by (intros H; inversion H). reflexivity.
  - apply NoDup_cons in ND as [NI ND]. rewrite (IH ND).
    destruct (N.eqb_spec k x) as [->|Ne].
    + rewrite decide_False by exact NI. rewrite decide_True by (apply elem_of_cons; now left). apply app_nil_r.
    + cbn [app]. destruct (decide (k ∈ xs)) as [H|H].
      * now rewrite decide_True by (apply elem_of_cons; now right).
      * rewrite decide_False; [reflexivity|]. intros K. apply elem_of_cons in K as [K|K]; congruence.
Qed.
Lemma flat_map_concat {A B} (f : A -> list B) ls : flat_map f (concat ls) = flat_map (flat_map f) ls.
Proof. induction ls as [|l ls IH]; [reflexivity|]. cbn. now rewrite flat_map_app, IH. Qed.
Lemma flat_map_map {A B C} (g : A -> B) (f : B -> list C) l : flat_map f (map g l) = flat_map (fun x => f (g x)) l.
Proof. induction l as [|x l IH]; [reflexivity|]. cbn. now rewrite IH. Qed.
Lemma flat_map_single {A B} (g : A -> B) l : flat_map (fun x => [g x]) l = map g l.
Proof. induction l as [|x l IH]; [reflexivity|]. cbn. now rewrite IH. Qed.
Lemma concat_flat {A} (ls : list (list A)) : concat ls = flat_map id ls.
Proof. induction ls as [|l ls IH]; [reflexivity|]. cbn. now rewrite IH. Qed.

(** ** What is shown *)

Definition row (i : eindex) (e : elog) : elog * N * N := (e, fst (fst i), snd (fst i)).

Lemma filter_none {A} (p : A -> bool) l : existsb p l = false -> List.filter p l = [].
Proof.
  induction l as [|x l IH]; [reflexivity|]. cbn. intros H. apply orb_false_iff in H as [H1 H2].
  rewrite H1. now apply IH.
Qed.

Lemma shown_complete q found L : complete q found = RLogs L -> shown q L = shown q found.
Proof.
  unfold complete. intros [= <-]. induction found as [|i found IH]; [reflexivity|].
  unfold filter; cbn [list_filter]. fold (@filter eindex (list eindex) _).
  destruct (decide _) as [H|H]; cbn [shown flat_map]; fold (shown q found).
  - f_equal. exact IH.
  - assert (E : existsb (topic_match q) (snd i) = false).
    { apply not_true_is_false. intros E. apply H. rewrite E. exact I. }
    rewrite (filter_none _ _ E). exact IH.
Qed.

Lemma shown_perm q l1 l2 : l1 ≡ₚ l2 -> shown q l1 ≡ₚ shown q l2.
Proof.
  intros P. unfold shown. induction P as [|x l1 l2 P IH|x y l|l1 l2 l3 P1 I1 P2 I2]; cbn [flat_map].
  - reflexivity.
  - now apply Permutation_app_head.
  - rewrite !app_assoc. apply Permutation_app_tail, Permutation_app_comm.
  - now rewrite I1.
Qed.

(** The events of one transaction at one address that match. *)
Definition cell (q : query) (c : committed) (a : N) : list (elog * N * N) :=
  map (fun e => (e, c_ticket c, c_txid c)) (List.filter (topic_match q) (of_addr a (c_events c))).

Lemma shown_stored q h a tn :
  shown q (map index_of (stored h a tn)) =
  flat_map (fun c => if c_ticket c =? tn then cell q c a else []) h.
Proof.
  unfold shown. rewrite flat_map_map. unfold stored.
  induction h as [|c h IH]; [reflexivity|]. cbn [flat_map]. rewrite flat_map_app, IH. f_equal.
  destruct (c_ticket c =? tn); [|reflexivity].
  unfold cell. destruct (of_addr a (c_events c)) as [|e r] eqn:F; [reflexivity|].
  cbn [flat_map index_of fst snd]. now rewrite app_nil_r.
Qed.

Lemma filter_addrs (p : elog -> bool) addrs ls : NoDup addrs ->
  flat_map (fun a => List.filter p (of_addr a ls)) addrs ≡ₚ
  List.filter (fun e => p e && bool_decide (e_addr e ∈ addrs)) ls.
Proof.
  intros ND. induction ls as [|e ls IH]; cbn [of_addr List.filter].
  - cbn. now rewrite flat_map_nil.
  - assert (S : flat_map (fun a => List.filter p
        (if e_addr e =? a then e :: List.filter (fun l => e_addr l =? a) ls
         else List.filter (fun l => e_addr l =? a) ls)) addrs ≡ₚ
      flat_map (fun a => if e_addr e =? a then List.filter p [e] else []) addrs ++
      flat_map (fun a => List.filter p (of_addr a ls)) addrs).
    { rewrite <- flat_map_app_f. apply flat_map_perm. intros a _.
      destruct (e_addr e =? a); [|reflexivity]. cbn [List.filter]. now destruct (p e). }
    rewrite S, IH, (flat_map_pick (fun _ => List.filter p [e])) by exact ND. cbn [List.filter].
    destruct (decide (e_addr e ∈ addrs)) as [M|M].
    + rewrite (bool_decide_eq_true_2 _ M), andb_true_r. now destruct (p e).
    + rewrite (bool_decide_eq_false_2 _ M), andb_false_r. reflexivity.
Qed.

Lemma topic_match_true q e : topic_match q e = true <-> exists t, t ∈ e_topics e /\ t ∈ q_topics q.
Proof.
  unfold topic_match. rewrite existsb_exists. split.
  - intros (t & T & E). apply existsb_exists in E as (w & W & E). apply N.eqb_eq in E. subst w.
    exists t. now rewrite !elem_of_list_In.
  - intros (t & T & W). exists t. rewrite elem_of_list_In in T, W. split; [exact T|].
    apply existsb_exists. exists t. now rewrite N.eqb_refl.
Qed.

Lemma filter_wants q tn ls :
  (if bool_decide (q_from q <= tn <= q_to q)
   then List.filter (fun e => topic_match q e && bool_decide (e_addr e ∈ q_addrs q)) ls else [])
  = filter (wants q tn) ls.
Proof.
  induction ls as [|e ls IH]; [now destruct (bool_decide _)|].
  rewrite filter_cons, <- IH. clear IH.
  destruct (bool_decide (q_from q <= tn <= q_to q)) eqn:B.
  - apply bool_decide_eq_true in B. cbn [List.filter].
    destruct (topic_match q e && bool_decide (e_addr e ∈ q_addrs q)) eqn:E.
    + rewrite decide_True; [reflexivity|]. apply andb_true_iff in E as [E1 E2].
      apply bool_decide_eq_true in E2. apply topic_match_true in E1. now repeat split.
    + rewrite decide_False; [reflexivity|]. intros (_ & A & T). apply topic_match_true in T.
      rewrite T in E. cbn in E. apply bool_decide_eq_false in E. contradiction.
  - apply bool_decide_eq_false in B. rewrite decide_False; [reflexivity|]. now intros [? _].
Qed.

(** The cells of the range add up to the matching events. *)
Lemma sum_cells q h bs : NoDup (q_addrs q) -> NoDup bs ->
  (forall b, b ∈ bs <-> q_from q <= b <= q_to q) ->
  flat_map (fun b => flat_map (fun a =>
    flat_map (fun c => if c_ticket c =? b then cell q c a else []) h) (q_addrs q)) bs
  ≡ₚ matching q h.
Proof.
  intros NA NB BS. unfold matching.
  transitivity (flat_map (fun b => flat_map (fun c => flat_map (fun a =>
     if c_ticket c =? b then cell q c a else []) (q_addrs q)) h) bs).
  { apply flat_map_perm. intros b _. apply flat_map_swap. }
  rewrite flat_map_swap. apply flat_map_perm. intros c _.
  transitivity (flat_map (fun b => if c_ticket c =? b then
     flat_map (fun a => cell q c a) (q_addrs q) else []) bs).
  { apply flat_map_perm. intros b _. destruct (c_ticket c =? b); [reflexivity|]. now rewrite flat_map_nil. }
  rewrite (flat_map_pick (fun _ => flat_map (fun a => cell q c a) (q_addrs q))) by exact NB.
  rewrite <- filter_wants.
  destruct (decide (c_ticket c ∈ bs)) as [M|M].
  - rewrite bool_decide_eq_true_2 by (now apply BS).
    unfold cell. rewrite <- (flat_map_single (fun e => (e, c_ticket c, c_txid c)) (List.filter _ _)).
    rewrite <- (Permutation_flat_map _ (filter_addrs (topic_match q) (q_addrs q) (c_events c) NA)).
    match goal with |- ?a ≡ₚ ?b => assert (Eq : a = b); [|now rewrite Eq] end.
    clear. induction (q_addrs q) as [|a l IH]; [reflexivity|].
    cbn [flat_map]. rewrite flat_map_app, IH, flat_map_single. reflexivity.
  - rewrite bool_decide_eq_false_2 by (now rewrite <- BS). reflexivity.
Qed.

Lemma sum_cells_elem q h bs x :
  (forall b, b ∈ bs <-> q_from q <= b <= q_to q) ->
  x ∈ flat_map (fun b => flat_map (fun a =>
    flat_map (fun c => if c_ticket c =? b then cell q c a else []) h) (q_addrs q)) bs
  <-> x ∈ matching q h.
Proof.
  intros BS. unfold matching. rewrite !elem_of_list_In, !in_flat_map. split.
  - intros (b & B & H). apply in_flat_map in H as (a & A & H). apply in_flat_map in H as (c & C & H).
    destruct (N.eqb_spec (c_ticket c) b) as [E|E]; [|destruct H]. subst b.
    unfold cell in H. apply in_map_iff in H as (e & <- & H).
    apply filter_In in H as [H T]. apply filter_In in H as [H Ea]. apply N.eqb_eq in Ea.
    exists c. split; [exact C|]. apply in_map_iff. exists e. split; [reflexivity|].
    apply elem_of_list_In, elem_of_list_filter. split; [|now apply elem_of_list_In].
    split; [apply BS; now apply elem_of_list_In|]. split; [rewrite Ea; now apply elem_of_list_In|].
    now apply topic_match_true.
  - intros (c & C & H). apply in_map_iff in H as (e & <- & H).
    apply elem_of_list_In, elem_of_list_filter in H as [(R & A & T) H].
    exists (c_ticket c). split; [apply elem_of_list_In; now apply BS|].
    apply in_flat_map. exists (e_addr e). split; [now apply elem_of_list_In|].
    apply in_flat_map. exists c. split; [exact C|]. rewrite N.eqb_refl.
    unfold cell. apply in_map_iff. exists e. split; [reflexivity|].
    apply filter_In. split; [|now apply topic_match_true].
    apply filter_In. split; [now apply elem_of_list_In|]. apply N.eqb_refl.
Qed.

(** ** The run *)

Definition pairs (q : query) (bs : list N) : list (N * N) :=
  flat_map (fun b => map (fun a => (a, b)) (q_addrs q)) bs.

Lemma query_keys_pairs sha q bs : query_keys sha q bs = map (fun p => log_key sha (fst p) (snd p)) (pairs q bs).
Proof.
  unfold query_keys, pairs. induction bs as [|b bs IH]; [reflexivity|].
  cbn [flat_map]. rewrite map_app, IH, map_map. reflexivity.
Qed.

Lemma flat_map_pairs {B} q bs (f : N -> N -> list B) :
  flat_map (fun p => f (fst p) (snd p)) (pairs q bs) =
  flat_map (fun b => flat_map (fun a => f a b) (q_addrs q)) bs.
Proof.
  unfold pairs. induction bs as [|b bs IH]; [reflexivity|].
  cbn [flat_map]. rewrite flat_map_app, IH, flat_map_map. reflexivity.
Qed.

Lemma pairs_elem q bs p : p ∈ pairs q bs -> fst p ∈ q_addrs q /\ snd p ∈ bs.
Proof.
  unfold pairs. rewrite elem_of_list_In, in_flat_map. intros (b & B & H).
  apply in_map_iff in H as (a & <- & A). now rewrite !elem_of_list_In.
Qed.

Definition small_range (q : query) : Prop :=
  q_from q < 2 ^ 63 /\ q_to q < 2 ^ 63 /\ (q_to q - q_from q) * len (q_addrs q) < 2 ^ 64.

Lemma accepted_parts q : query_ok q = true -> small_range q ->
  q_addrs q <> [] /\ q_topics q <> [] /\ q_from q <= q_to q /\
  (q_to q - q_from q) * len (q_addrs q) <= 100.
Proof.
  intros O (F & T & P). unfold query_ok in O. rewrite (check_range_small q F T P) in O.
  destruct (q_addrs q) as [|a r] eqn:E; [discriminate|].
  destruct (q_topics q) as [|t u]; [discriminate|].
  destruct (N.ltb_spec (q_to q) (q_from q)); [discriminate|].
  destruct (N.ltb_spec 100 ((q_to q - q_from q) * len (a :: r))); [discriminate|].
  now repeat split.
Qed.

Lemma logs_exact sha q h :
  query_ok q = true -> query_sizes q -> small_range q ->
  history_ok h -> no_clash sha h ->
  exists bs, (exists fuel, block_loop fuel (q_from q) (q_to q) = Some bs) /\
  query_keys sha q bs <> [] /\
  forall l, answers_from (commits sha ∅ h) (query_keys sha q bs) l ->
  exists s L, on_answers q (len (query_keys sha q bs)) run0 l = Some s /\
  lr_reports s = [RLogs L] /\
  (forall x, x ∈ shown q L <-> x ∈ matching q h) /\
  (NoDup (q_addrs q) -> shown q L ≡ₚ matching q h).
Proof.
  intros O (SA & S1 & S2) R H (SH & NC & NI).
  destruct (accepted_parts q O R) as (NA & NT & Le & _). destruct R as (F & T & P).
  set (bs := blocks (q_from q) (S (N.to_nat (q_to q - q_from q)))).
  exists bs. split.
  { exists (S (N.to_nat (q_to q - q_from q))). apply block_loop_ends; [exact T|lia]. }
  assert (BS : forall b, b ∈ bs <-> q_from q <= b <= q_to q).
  { intros b. unfold bs. rewrite blocks_elem. lia. }
  assert (PN : pairs q bs <> []).
  { unfold bs. rewrite blocks_S. unfold pairs. cbn [flat_map].
    destruct (q_addrs q) as [|a r]; [now destruct NA|discriminate]. }
  rewrite query_keys_pairs. split.
  { intros E. apply map_eq_nil in E. contradiction. }
  intros l A. unfold answers_from in A. rewrite map_map in A.
  set (d := commits sha ∅ h) in *.
  set (f := fun p : N * N => (held d (log_key sha (fst p) (snd p)),
                              map index_of (stored h (fst p) (snd p)))).
  assert (E : map (fun x : N * N => LValue (held d (log_key sha (fst x) (snd x)))) (pairs q bs) =
              map (fun p : bytes * list eindex => LValue (fst p)) (map f (pairs q bs))).
  { rewrite map_map. reflexivity. }
  rewrite E in A. clear E. apply Permutation_map_inv in A as (vs & -> & PV).
  assert (FV : Forall (fun p : bytes * list eindex => reads (fst p) (snd p)) vs).
  { rewrite <- PV. rewrite Forall_forall. intros p M. apply elem_of_list_In, in_map_iff in M as ((a & b) & <- & M).
    apply elem_of_list_In, pairs_elem in M as [Ma Mb]. cbn [fst snd f].
    apply (read_stored sha SH NC); [exact H| | |exact NI].
    - rewrite Forall_forall in SA. exact (SA a Ma).
    - apply BS in Mb. rewrite pow63 in T. rewrite pow64. cbn [fst snd] in Mb. lia. }
  assert (VN : vs <> []).
  { intros ->. symmetry in PV. apply Permutation_nil in PV. apply map_eq_nil in PV. contradiction. }
  eexists _, _. split.
  { apply (run_values q vs); [exact FV|exact VN|]. cbn [run0 lr_acquired].
    unfold len. rewrite <- (Permutation_length PV), !map_length. lia. }
  cbn [run0 lr_reports lr_found app]. split; [reflexivity|].
  rewrite (shown_complete q _ _ eq_refl).
  assert (SP : shown q (concat (map snd vs)) ≡ₚ
     flat_map (fun b => flat_map (fun a =>
       flat_map (fun c => if c_ticket c =? b then cell q c a else []) h) (q_addrs q)) bs).
  { transitivity (shown q (concat (map snd (map f (pairs q bs))))).
    - apply shown_perm. rewrite !concat_flat. apply Permutation_flat_map, Permutation_map. now symmetry.
    - rewrite map_map. unfold shown at 1. rewrite flat_map_concat, flat_map_map.
      rewrite <- (flat_map_pairs q bs (fun a b => flat_map (fun c => if c_ticket c =? b then cell q c a else []) h)).
      apply flat_map_perm. intros [a b] _. cbn [f fst snd].
      rewrite <- shown_stored. reflexivity. }
  split.
  - intros x. rewrite SP. apply sum_cells_elem. exact BS.
  - intros ND. rewrite SP. apply sum_cells; [exact ND|apply blocks_nodup|exact BS].
Qed.

(** With an error among the answers nothing is ever reported as found. *)
Definition readable (a : lock_answer) : Prop :=
  match a with LError => True | LValue v => read_index v <> None end.

Lemma errors_len l : (errors l <= length l)%nat.
Proof. unfold errors. induction l as [|[v|] l IH]; cbn; lia. Qed.

Lemma errors_perm l l' : l ≡ₚ l' -> errors l = errors l'.
Proof. unfold errors. induction 1 as [|[v|] l1 l2 P IH|[v|] [w|] l|]; cbn; congruence. Qed.

Lemma run_error q n l s : Forall readable l ->
  lr_acquired s + len l - N.of_nat (errors l) < n ->
  exists s', on_answers q n s l = Some s' /\
  lr_reports s' = lr_reports s ++ repeat RFailed (errors l).
Proof.
  induction l as [|a l IH] in s |- *; intros F; cbn [on_answers].
  { intros _. exists s. split; [reflexivity|]. cbn. now rewrite app_nil_r. }
  apply Forall_cons in F as [Fa F]. rewrite len_cons. unfold on_answer. destruct a as [v|].
  - change (errors (LValue v :: l)) with (errors l). cbn in Fa.
    pose proof (errors_len l) as EL. assert (LL : len l = N.of_nat (length l)) by reflexivity.
    destruct (read_index v) as [o|]; [|contradiction]. intros L.
    destruct (N.eqb_spec (lr_acquired s + 1) n) as [En|En]; [lia|].
    destruct (IH (LRun (match o with Some i => lr_found s ++ [i] | None => lr_found s end)
                       (lr_acquired s + 1) (lr_reports s)) F) as (s' & E1 & E2).
    { cbn [lr_acquired]. lia. }
    exists s'. now split.
  - change (errors (LError :: l)) with (S (errors l)). intros L.
    destruct (IH (LRun (lr_found s) (lr_acquired s) (lr_reports s ++ [RFailed])) F) as (s' & E1 & E2).
    { cbn [lr_acquired]. lia. }
    exists s'. split; [exact E1|]. rewrite E2. cbn [lr_reports repeat]. now rewrite <- app_assoc.
Qed.

Lemma logs_error sha q h bs l :
  query_ok q = true -> query_sizes q -> small_range q ->
  history_ok h -> no_clash sha h ->
  (exists fuel, block_loop fuel (q_from q) (q_to q) = Some bs) ->
  answers_or_errors (commits sha ∅ h) (query_keys sha q bs) l -> (0 < errors l)%nat ->
  exists s, on_answers q (len (query_keys sha q bs)) run0 l = Some s /\
  lr_reports s = repeat RFailed (errors l).
Proof.
  intros O (SA & S1 & S2) R H (SH & NC & NI) [fuel BL] (l' & P & F2) Er.
  destruct (accepted_parts q O R) as (NA & NT & Le & _). destruct R as (F & T & PR).
  assert (BS : forall b, b ∈ bs -> b <= q_to q).
  { clear - BL. revert BL. generalize (q_from q). intros from.
    induction fuel as [|fuel IH] in from, bs |- *; cbn [block_loop];
      destruct (N.leb_spec from (q_to q)); try discriminate.
    - intros [= <-] b Hb. inversion Hb.
    - destruct (block_loop fuel (add64 from 1) (q_to q)) as [r|] eqn:E; [|discriminate].
      intros [= <-] b Hb. apply elem_of_cons in Hb as [->|Hb]; [assumption|]. exact (IH _ _ E b Hb).
    - intros [= <-] b Hb. inversion Hb. }
  destruct (run_error q (len (query_keys sha q bs)) l run0) as (s & E1 & E2).
  - rewrite P. apply Forall_forall. intros a Ha. apply elem_of_list_lookup in Ha as [i Hi].
    destruct (Forall2_lookup_r _ _ _ _ _ F2 Hi) as (k & Hk & [->| ->]); [exact I|].
    rewrite query_keys_pairs in Hk. apply elem_of_list_lookup_2, elem_of_list_In, in_map_iff in Hk as (p & <- & Hp).
    apply elem_of_list_In, pairs_elem in Hp as [Pa Pb].
    assert (RS : reads (held (commits sha ∅ h) (log_key sha (fst p) (snd p)))
                   (map index_of (stored h (fst p) (snd p)))).
    { apply (read_stored sha SH NC); [exact H| | |exact NI].
      - rewrite Forall_forall in SA. exact (SA _ Pa).
      - apply BS in Pb. rewrite pow63 in T. rewrite pow64. lia. }
    cbn [readable]. intros RN. unfold reads in RS. rewrite RN in RS.
    destruct (map index_of (stored h (fst p) (snd p))) as [|i0 [|? ?]]; try discriminate; exact RS.
  - cbn [run0 lr_acquired]. apply Permutation_length in P. apply Forall2_length in F2.
    pose proof (errors_len l). unfold len. rewrite F2, <- P. lia.
  - exists s. now split.
Qed.

(** ** What the checks miss *)

Lemma loop_wraps fuel : block_loop fuel (2 ^ 64 - 1) (2 ^ 64 - 1) = None.
Proof.
  assert (H : forall fuel from, from < 2 ^ 64 -> block_loop fuel from (2 ^ 64 - 1) = None).
  { clear. induction fuel as [|fuel IH]; intros from L; cbn [block_loop];
      rewrite (proj2 (N.leb_le _ _)) by (rewrite pow64 in *; lia); [reflexivity|].
    rewrite IH; [reflexivity|]. unfold add64, wrap64. apply N.mod_lt. discriminate. }
  apply H. reflexivity.
Qed.
