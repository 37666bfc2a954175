(** Proofs for C84. *)
From Coq Require Import NArith ZArith List Bool Lia ZifyBool ZifyNat ZifyN.
From stdpp Require Import gmap.
From Verif Require Import Base CodecModel CodecSpec CodecProofs MsgModel MsgProofs WireProofs EvmLogModel EvmLogSpec.
Import ListNotations.
Open Scope N_scope.

(** ** Keys *)

Lemma be_bytes_inj n a b : a < 256 ^ N.of_nat n -> b < 256 ^ N.of_nat n ->
  be_bytes n a = be_bytes n b -> a = b.
Proof. intros A B H. rewrite <- (be_value_bytes n a A), <- (be_value_bytes n b B). now rewrite H. Qed.
Lemma le_bytes_inj n a b : a < 256 ^ N.of_nat n -> b < 256 ^ N.of_nat n ->
  le_bytes n a = le_bytes n b -> a = b.
Proof. intros A B H. rewrite <- (le_value_bytes n a A), <- (le_value_bytes n b B). now rewrite H. Qed.

Section P.
Context (sha : bytes -> N).
Hypothesis SHA : is_sha sha.
Notation key := (key sha).
Notation log_key := (log_key sha).

Lemma b20 a : a < 2 ^ 160 -> a < 256 ^ N.of_nat 20.
Proof. now change (256 ^ N.of_nat 20) with (2 ^ 160). Qed.
Lemma b32 a : a < 2 ^ 256 -> a < 256 ^ N.of_nat 32.
Proof. now change (256 ^ N.of_nat 32) with (2 ^ 256). Qed.
Lemma b8 a : a < 2 ^ 64 -> a < 256 ^ N.of_nat 8.
Proof. now change (256 ^ N.of_nat 8) with (2 ^ 64). Qed.

Lemma key_length p : length (key p) =
  match p with PAccount _ => 20 | PCode _ => 21 | PStorage _ _ => 52 | _ => 32 end%nat.
Proof.
  destruct p; cbn [EvmLogModel.key]; unfold ticket_key, EvmLogModel.log_key;
    rewrite ?app_length, !be_bytes_length; reflexivity.
Qed.

Lemma hashed8 t : hashed (le_bytes 8 t).
Proof. split; [left; apply le_bytes_length|apply le_bytes_is_byte]. Qed.
Lemma hashed28 a t : hashed (be_bytes 20 a ++ le_bytes 8 t).
Proof.
  split; [right; now rewrite app_length, be_bytes_length, le_bytes_length|].
  apply Forall_app_2; [apply be_bytes_is_byte|apply le_bytes_is_byte].
Qed.

Lemma sha_same (A : Prop) x y : hashed x -> hashed y -> be_bytes 32 (sha x) = be_bytes 32 (sha y) ->
  (x = y -> A) -> A \/ sha_collision sha.
Proof using SHA.
  intros Hx Hy H K. apply be_bytes_inj in H; [|apply b32, SHA|apply b32, SHA].
  destruct (decide (x = y)) as [->|N]; [left; auto|]. right. now exists x, y.
Qed.

Lemma keys_apart p q : place_ok p -> place_ok q -> key p = key q ->
  p = q \/ sha_collision sha \/ (p <> q /\ (id_collision sha p \/ id_collision sha q)).
Proof using SHA.
  intros P Q H. pose proof (f_equal length H) as L. rewrite !key_length in L.
  destruct p as [a|a|a k|i|t|a t], q as [a'|a'|a' k'|i'|t'|a' t']; try discriminate L; clear L;
    cbn [EvmLogModel.key place_ok id_collision] in *; unfold ticket_key, EvmLogModel.log_key in *.
  - left. f_equal. apply (be_bytes_inj 20); auto using b20.
  - left. f_equal. apply app_inv_tail in H. apply (be_bytes_inj 20); auto using b20.
  - left. apply app_inj_1 in H as [H1 H2]; [|now rewrite !be_bytes_length].
    apply be_bytes_inj in H1; [|apply b20; tauto..]. apply be_bytes_inj in H2; [|apply b32; tauto..].
    congruence.
  - left. f_equal. apply (be_bytes_inj 32); auto using b32.
  - right. right. split; [congruence|]. left. exists (le_bytes 8 t').
    split; [first [apply hashed8|apply hashed28]|].
    symmetry. apply be_bytes_inj in H; [exact H|now apply b32|apply b32, SHA].
  - right. right. split; [congruence|]. left. exists (be_bytes 20 a' ++ le_bytes 8 t').
    split; [first [apply hashed8|apply hashed28]|].
    symmetry. apply be_bytes_inj in H; [exact H|now apply b32|apply b32, SHA].
  - right. right. split; [congruence|]. right. exists (le_bytes 8 t).
    split; [first [apply hashed8|apply hashed28]|].
    apply be_bytes_inj in H; [exact H|apply b32, SHA|now apply b32].
  - destruct (sha_same (t = t') _ _ (hashed8 _) (hashed8 _) H) as [->|C]; [|now left|now right; left].
    intros E. apply (le_bytes_inj 8); auto using b8.
  - destruct (sha_same False _ _ (hashed8 _) (hashed28 _ _) H) as [[]|C]; [|now right; left].
    intros E. apply (f_equal length) in E. rewrite app_length, !le_bytes_length, be_bytes_length in E. lia.
  - right. right. split; [congruence|]. right. exists (be_bytes 20 a ++ le_bytes 8 t).
    split; [first [apply hashed8|apply hashed28]|].
    apply be_bytes_inj in H; [exact H|apply b32, SHA|now apply b32].
  - destruct (sha_same False _ _ (hashed28 _ _) (hashed8 _) H) as [[]|C]; [|now right; left].
    intros E. apply (f_equal length) in E. rewrite app_length, !le_bytes_length, be_bytes_length in E. lia.
  - destruct (sha_same (a = a' /\ t = t') _ _ (hashed28 _ _) (hashed28 _ _) H) as [[-> ->]|C]; [|now left|now right; left].
    intros E. apply app_inj_1 in E as [E1 E2]; [|now rewrite !be_bytes_length].
    apply be_bytes_inj in E1; [|apply b20; tauto..]. apply le_bytes_inj in E2; [|apply b8; tauto..]. auto.
Qed.

(** ** The index *)

Definition of_addr (a : N) (ls : list elog) : list elog := List.filter (fun l => e_addr l =? a) ls.

Lemma of_addr_app a l1 l2 : of_addr a (l1 ++ l2) = of_addr a l1 ++ of_addr a l2.
Proof. apply List.filter_app. Qed.

Lemma add_event_fst m l : map fst (add_event m l) =
  if decide (e_addr l ∈ map fst m) then map fst m else map fst m ++ [e_addr l].
Proof.
  induction m as [|[a ls] r IH]; cbn [add_event map fst].
  - rewrite decide_False by (intros H; inversion H). reflexivity.
  - destruct (N.eqb_spec a (e_addr l)) as [E|E]; cbn [map fst].
    + rewrite decide_True by (rewrite E; apply elem_of_cons; now left). reflexivity.
    + rewrite IH. destruct (decide (e_addr l ∈ map fst r)) as [M|M].
      * rewrite decide_True by (apply elem_of_cons; now right). reflexivity.
      * rewrite decide_False by (intros H; apply elem_of_cons in H as [H|H]; congruence). reflexivity.
Qed.

(** The entries of the sorted events. *)
Definition sorted_inv (ls : list elog) (m : list (N * list elog)) : Prop :=
  NoDup (map fst m) /\
  (forall a x, (a, x) ∈ m <-> x = of_addr a ls /\ x <> []).

Lemma add_event_elem m l a x : NoDup (map fst m) ->
  (a, x) ∈ add_event m l <->
  (a <> e_addr l /\ (a, x) ∈ m) \/
  (a = e_addr l /\ ((exists y, (a, y) ∈ m /\ x = y ++ [l]) \/ (a ∉ map fst m /\ x = [l]))).
Proof.
  induction m as [|[b ls] r IH]; intros ND; cbn [add_event map fst] in *.
  - rewrite elem_of_list_singleton. split.
    + intros [= -> ->]. right. split; [reflexivity|]. right. split; [intros H; inversion H|reflexivity].
    + intros [[_ H]|(-> & [(y & H & _)|[_ ->]])]; [inversion H..|]; reflexivity.
  - apply NoDup_cons in ND as [NI ND].
    destruct (N.eqb_spec b (e_addr l)) as [E|E]; rewrite !elem_of_cons.
    + split.
      * intros [[= -> ->]|H].
        -- right. split; [exact E|]. left. exists ls. split; [now left|reflexivity].
        -- left. split; [|now right]. intros ->. apply NI. rewrite E.
           apply elem_of_list_fmap. exists (e_addr l, x). auto.
      * intros [[Na [[= -> ->]|H]]|(-> & [(y & H & ->)|[NI' ->]])].
        -- congruence.
        -- now right.
        -- apply elem_of_cons in H as [[= -> ->]|H]; [left; congruence|].
           exfalso. apply NI. rewrite E. apply elem_of_list_fmap. exists (e_addr l, y). auto.
        -- exfalso. apply NI'. left. congruence.
    + rewrite (IH ND). split.
      * intros [[= -> ->]|[[Na H]|(-> & [(y & H & ->)|[NI' ->]])]].
        -- left. split; [exact E|now left].
        -- left. split; [exact Na|now right].
        -- right. split; [reflexivity|]. left. exists y. split; [apply elem_of_cons; now right|reflexivity].
        -- right. split; [reflexivity|]. right. split; [|reflexivity].
           intros [H|H]; congruence.
      * intros [[Na [[= -> ->]|H]]|(-> & [(y & H & ->)|[NI' ->]])].
        -- now left.
        -- right. now left.
        -- apply elem_of_cons in H as [[= E1 _]|H]; [now destruct E|].
           right. right. split; [reflexivity|]. left. now exists y.
        -- right. right. split; [reflexivity|]. right. split; [|reflexivity].
           intros H. apply NI'. now right.
Qed.

Lemma sorted_step ls m l : sorted_inv ls m -> sorted_inv (ls ++ [l]) (add_event m l).
Proof.
  intros [ND I]. split.
  - rewrite add_event_fst. destruct (decide _) as [M|M]; [exact ND|].
    apply NoDup_app. split; [exact ND|]. split; [|apply NoDup_singleton].
    intros x H ->%elem_of_list_singleton. exact (M H).
  - intros a x. rewrite (add_event_elem m l a x ND), of_addr_app. cbn [of_addr List.filter].
    destruct (N.eqb_spec (e_addr l) a) as [E|E].
    + split.
      * intros [[Na _]|(-> & [(y & H & ->)|[NI ->]])]; [congruence| |].
        -- apply I in H as [-> Hn]. split; [reflexivity|]. destruct (of_addr _ ls); discriminate.
        -- split; [|discriminate]. destruct (of_addr (e_addr l) ls) eqn:F; [reflexivity|].
           exfalso. apply NI. apply elem_of_list_fmap. exists (e_addr l, of_addr (e_addr l) ls).
           split; [reflexivity|]. apply I. split; [reflexivity|]. rewrite F. discriminate.
      * intros [-> _]. right. split; [now symmetry|]. subst a.
        destruct (of_addr (e_addr l) ls) as [|e r] eqn:F.
        -- right. split; [|reflexivity]. intros H. apply elem_of_list_fmap in H as ([b y] & Eb & H).
           cbn in Eb. subst b. apply I in H as [-> Hn]. now apply Hn.
        -- left. exists (e :: r). split; [|reflexivity]. apply I. split; [now symmetry|discriminate].
    + rewrite app_nil_r. split.
      * intros [[_ H]|(-> & _)]; [now apply I|congruence].
      * intros H. left. split; [congruence|]. now apply I.
Qed.

Lemma sorted_ok ls : sorted_inv ls (sorted_events ls).
Proof.
  unfold sorted_events. induction ls as [|l ls IH] using rev_ind.
  - split; [apply NoDup_nil_2|]. intros a x. split; [intros H; inversion H|].
    intros [-> H]. now destruct H.
  - rewrite fold_left_app. cbn. now apply sorted_step.
Qed.

(** ** What the shards hold *)

Definition not_events (p : place) : Prop := match p with PEvents _ _ => False | _ => True end.

Hypothesis NC : ~ sha_collision sha.

Lemma key_events p a tn : place_ok p -> a < 2 ^ 160 -> tn < 2 ^ 64 ->
  ~ id_collision sha p -> key p = key (PEvents a tn) -> p = PEvents a tn.
Proof using SHA NC.
  intros P A T NI H. destruct (keys_apart p (PEvents a tn) P (conj A T) H) as [E|[C|[_ [I|[]]]]];
    [exact E|contradiction|contradiction].
Qed.

Lemma fold_put_other l d p :
  Forall (fun u => key (fst u) <> key p) l -> fold_left (put sha) l d !! key p = d !! key p.
Proof.
  induction l as [|u l IH] in d |- *; intros F; [reflexivity|]. cbn [fold_left].
  apply Forall_cons in F as [F1 F2]. rewrite IH by exact F2. unfold put.
  now rewrite lookup_insert_ne.
Qed.

Lemma fold_put_nodup l d p v : NoDup (map fst l) -> (p, v) ∈ l ->
  (forall u, u ∈ l -> key (fst u) = key p -> fst u = p) ->
  fold_left (put sha) l d !! key p = Some v.
Proof.
  induction l as [|u l IH] in d |- *; intros ND E I; [inversion E|].
  cbn [fold_left map] in *. apply NoDup_cons in ND as [NI ND].
  apply elem_of_cons in E as [<-|E].
  - rewrite fold_put_other.
    + unfold put. cbn. now rewrite lookup_insert.
    + apply Forall_forall. intros w W K. apply I in K; [|apply elem_of_cons; now right].
      apply NI. apply elem_of_list_fmap. exists w. now rewrite K.
  - apply IH; auto. intros w W. apply I. apply elem_of_cons. now right.
Qed.

(** What a transaction stores under the key of an address and a ticket number. *)
Definition entry (c : committed) (a : N) : option bytes :=
  match of_addr a (c_events c) with
  | [] => None
  | ls => Some (make_buffer (wr c_log_index (c_ticket c, c_txid c, ls)))
  end.

Lemma event_addr_ok e : event_ok e -> e_addr e < 2 ^ 160.
Proof. destruct e as [[a d] t]. intros [[A _] _]. exact A. Qed.

Lemma sorted_place c p v : committed_ok c ->
  (p, v) ∈ event_updates (c_ticket c) (c_txid c) (c_events c) ->
  exists a, a < 2 ^ 160 /\ p = PEvents a (c_ticket c) /\ entry c a = Some v.
Proof.
  intros (T & X & Ev & _) H. unfold event_updates in H.
  apply elem_of_list_fmap in H as ([a ls] & [= -> ->] & H). cbn [fst snd].
  apply sorted_ok in H as [-> Hn]. exists a. split.
  - destruct (of_addr a (c_events c)) as [|e r] eqn:F; [now destruct Hn|].
    assert (In e (of_addr a (c_events c))) as M by (rewrite F; now left).
    apply List.filter_In in M as [M1 M2]. apply N.eqb_eq in M2. subst a.
    apply event_addr_ok. rewrite Forall_forall in Ev. apply Ev. now apply elem_of_list_In.
  - split; [reflexivity|]. unfold entry. destruct (of_addr a (c_events c)) as [|e r]; [now destruct Hn|reflexivity].
Qed.

Lemma commit_lookup d c a tn : committed_ok c -> a < 2 ^ 160 -> tn < 2 ^ 64 ->
  Forall (fun u => ~ id_collision sha (fst u)) (c_other c) ->
  commit sha d c !! log_key a tn =
  if decide (c_ticket c = tn) then
    match entry c a with Some v => Some v | None => d !! log_key a tn end
  else d !! log_key a tn.
Proof using SHA NC.
  intros CO A T NI. unfold commit. rewrite fold_left_app.
  set (d1 := fold_left (put sha) (c_other c) d).
  assert (D1 : d1 !! log_key a tn = d !! log_key a tn).
  { subst d1. change (log_key a tn) with (key (PEvents a tn)). apply fold_put_other.
    destruct CO as (_ & _ & _ & _ & O). apply Forall_forall. intros u U K.
    rewrite Forall_forall in O, NI. destruct (O u U) as [PO NE].
    apply key_events in K; auto. now rewrite K in NE. }
  pose proof CO as (CT & _).
  assert (ND : NoDup (map fst (event_updates (c_ticket c) (c_txid c) (c_events c)))).
  { unfold event_updates. rewrite map_map. cbn.
    destruct (sorted_ok (c_events c)) as [ND _].
    rewrite <- (map_map fst (fun a => PEvents a (c_ticket c))).
    assert (Inj (=) (=) (fun a => PEvents a (c_ticket c))) by (intros x y [= ->]; reflexivity).
    exact (NoDup_fmap_2 (fun a => PEvents a (c_ticket c)) _ ND). }
  assert (KI : forall u, u ∈ event_updates (c_ticket c) (c_txid c) (c_events c) ->
    key (fst u) = log_key a tn -> fst u = PEvents a tn).
  { intros [p v] U K. destruct (sorted_place c p v CO U) as (b & B & -> & _).
    apply key_events; auto. now split. }
  change (log_key a tn) with (key (PEvents a tn)) in *.
  destruct (decide (c_ticket c = tn)) as [E|E].
  - destruct (entry c a) as [v|] eqn:En.
    + apply fold_put_nodup; auto. unfold event_updates. apply elem_of_list_fmap.
      unfold entry in En. destruct (of_addr a (c_events c)) as [|e r] eqn:F; [discriminate|].
      injection En as <-. exists (a, e :: r). split; [cbn; now rewrite E|].
      apply sorted_ok. split; [now symmetry|discriminate].
    + rewrite fold_put_other; [exact D1|]. apply Forall_forall. intros [p v] U K.
      pose proof (KI _ U K) as Kp. cbn in Kp. subst p.
      destruct (sorted_place c _ v CO U) as (b & _ & [= <- _] & En'). congruence.
  - rewrite fold_put_other; [exact D1|]. apply Forall_forall. intros [p v] U K.
    pose proof (KI _ U K) as Kp. cbn in Kp. subst p.
    destruct (sorted_place c _ v CO U) as (b & _ & [= _ Et'] & _). congruence.
Qed.

(** The events of the history at an address and a ticket number. *)
Definition stored (h : list committed) (a tn : N) : list (committed * list elog) :=
  flat_map (fun c => if c_ticket c =? tn then
                       match of_addr a (c_events c) with [] => [] | ls => [(c, ls)] end
                     else []) h.

Lemma stored_app h1 h2 a tn : stored (h1 ++ h2) a tn = stored h1 a tn ++ stored h2 a tn.
Proof. unfold stored. now rewrite flat_map_app. Qed.

Lemma stored_absent h a tn : tn ∉ map c_ticket h -> stored h a tn = [].
Proof.
  induction h as [|c h IH]; intros H; [reflexivity|]. cbn [stored flat_map map] in *.
  apply not_elem_of_cons in H as [H1 H2]. rewrite (proj2 (N.eqb_neq _ _)) by congruence.
  cbn. now apply IH.
Qed.

Definition stored_value (l : list (committed * list elog)) : option bytes :=
  match l with
  | (c, ls) :: _ => Some (make_buffer (wr c_log_index (c_ticket c, c_txid c, ls)))
  | [] => None
  end.

Lemma commits_lookup h a tn : history_ok h -> a < 2 ^ 160 -> tn < 2 ^ 64 ->
  Forall (fun c => Forall (fun u => ~ id_collision sha (fst u)) (c_other c)) h ->
  commits sha ∅ h !! log_key a tn = stored_value (stored h a tn) /\
  (length (stored h a tn) <= 1)%nat.
Proof using SHA NC.
  intros [F ND] A T. revert F ND. unfold commits.
  induction h as [|c h IH] using rev_ind; intros F ND NI.
  { cbn. split; [apply lookup_empty|lia]. }
  rewrite fold_left_app. cbn [fold_left].
  apply Forall_app in F as [F Fc]. apply Forall_cons in Fc as [Fc _].
  apply Forall_app in NI as [NI NIc]. apply Forall_cons in NIc as [NIc _].
  rewrite map_app in ND. apply NoDup_app in ND as (ND & NX & _). cbn in NX.
  destruct (IH F ND NI) as [E L]. rewrite commit_lookup by assumption. rewrite stored_app, E.
  replace (stored [c] a tn) with (if c_ticket c =? tn then
      match of_addr a (c_events c) with [] => [] | ls => [(c, ls)] end else [])
    by (unfold stored; cbn [flat_map]; now rewrite app_nil_r).
  destruct (decide (c_ticket c = tn)) as [Et|Et].
  - rewrite (proj2 (N.eqb_eq _ _) Et).
    rewrite (stored_absent h a tn) by (intros H; apply (NX tn H); rewrite Et; now apply elem_of_list_singleton).
    cbn [app]. unfold entry. destruct (of_addr a (c_events c)); (split; [reflexivity|cbn [length app]; lia]).
  - rewrite (proj2 (N.eqb_neq _ _) Et), app_nil_r. auto.
Qed.

(** ** The answers *)

Definition reads (v : bytes) (l : list eindex) : Prop :=
  match l with
  | [] => read_index v = Some None
  | [i] => read_index v = Some (Some i)
  | _ => False
  end.

Lemma of_addr_sub a ls e : e ∈ of_addr a ls -> e ∈ ls.
Proof. intros H. apply elem_of_list_In in H. apply List.filter_In in H. apply elem_of_list_In. tauto. Qed.

Lemma of_addr_len a ls : len (of_addr a ls) <= len ls.
Proof.
  unfold len, of_addr. induction ls as [|l ls IH]; cbn [List.filter length]; [lia|].
  destruct (e_addr l =? a); cbn [length]; lia.
Qed.

Definition index_of (p : committed * list elog) : eindex := (c_ticket (fst p), c_txid (fst p), snd p).

Lemma stored_elem h a tn c ls : (c, ls) ∈ stored h a tn ->
  c ∈ h /\ c_ticket c = tn /\ ls = of_addr a (c_events c) /\ ls <> [].
Proof.
  unfold stored. intros H. apply elem_of_list_In, in_flat_map in H as (x & Hx & H).
  destruct (N.eqb_spec (c_ticket x) tn) as [E|E]; [|destruct H].
  destruct (of_addr a (c_events x)) as [|e r] eqn:F; [destruct H|].
  destruct H as [[= <- <-]|[]]. rewrite F. split; [now apply elem_of_list_In|]. now repeat split.
Qed.

Lemma read_stored h a tn : history_ok h -> a < 2 ^ 160 -> tn < 2 ^ 64 ->
  Forall (fun c => Forall (fun u => ~ id_collision sha (fst u)) (c_other c)) h ->
  reads (held (commits sha ∅ h) (log_key a tn)) (map index_of (stored h a tn)).
Proof using SHA NC.
  intros H A T NI. destruct (commits_lookup h a tn H A T NI) as [E L].
  unfold held. rewrite E. clear E.
  destruct (stored h a tn) as [|[c ls] [|? ?]] eqn:S; [reflexivity| |cbn in L; lia].
  cbn [stored_value map reads index_of fst snd].
  assert (M : (c, ls) ∈ stored h a tn) by (rewrite S; now apply elem_of_list_singleton).
  apply stored_elem in M as (Ch & Et & El & _).
  destruct H as [F _]. rewrite Forall_forall in F. destruct (F c Ch) as (T' & X & Ev & Le & _).
  unfold read_index, from_buffer.
  assert (W : round_trips c_log_index) by apply wire_log_index.
  pose proof (W (c_ticket c, c_txid c, ls) []) as R.
  unfold encoding in R. rewrite app_nil_r in R. rewrite R; [reflexivity|].
  repeat split; cbn [fst snd].
  - exact T'.
  - exact X.
  - rewrite El. exact (N.le_lt_trans _ _ _ (of_addr_len a (c_events c)) Le).
  - rewrite El. apply Forall_forall. intros e E. rewrite Forall_forall in Ev. apply Ev.
    now apply of_addr_sub in E.
Qed.

(** A run whose requests all succeed. *)
Lemma run_values q (vs : list (bytes * list eindex)) n s :
  Forall (fun p => reads (fst p) (snd p)) vs -> vs <> [] ->
  lr_acquired s + len vs = n ->
  on_answers q n s (map (fun p => LValue (fst p)) vs) =
  Some (LRun (lr_found s ++ concat (map snd vs)) n
             (lr_reports s ++ [complete q (lr_found s ++ concat (map snd vs))])).
Proof.
  induction vs as [|[v l] r IH] in s |- *; intros F Ne E; [now destruct Ne|].
  apply Forall_cons in F as [Fv F]. cbn [map on_answers fst snd concat] in *.
  rewrite len_cons in E. unfold on_answer.
  assert (R : exists o, read_index v = Some o /\
     match o with Some i => lr_found s ++ [i] | None => lr_found s end = lr_found s ++ l).
  { destruct l as [|i [|? ?]]; cbn in Fv; [exists None|exists (Some i)|destruct Fv].
    - now rewrite app_nil_r.
    - now split. }
  destruct R as (o & -> & ->).
  destruct r as [|p r].
  - cbn [map concat on_answers]. rewrite len_nil in E. rewrite app_nil_r.
    replace (lr_acquired s + 1) with n by lia. rewrite N.eqb_refl. reflexivity.
  - destruct (N.eqb_spec (lr_acquired s + 1) n) as [En|En]; [rewrite len_cons in E; lia|].
    rewrite IH; [|exact F|discriminate|cbn [lr_acquired]; lia]. cbn [lr_found lr_acquired lr_reports].
    now rewrite <- app_assoc.
Qed.
End P.
