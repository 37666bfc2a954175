(** Proofs about the sentinels. *)
From Coq Require Import NArith List Bool Lia Arith.
From stdpp Require Import base decidable list.
From Verif Require Import Base CodecModel TxModel TxSpec TxProofs ValidationModel ValidationSpec ValidationProofs
  SentinelModel SentinelSpec.
Import ListNotations.
Open Scope N_scope.

Lemma add_att_same t a : ctx_id (add_att t a) = ctx_id t /\ ctx_inputs (add_att t a) = ctx_inputs t /\
  ctx_outputs (add_att t a) = ctx_outputs t.
Proof. unfold add_att. destruct (existsb _ _); auto. Qed.
Lemma add_att_in t a p : In p (ctx_atts (add_att t a)) -> p = a \/ In p (ctx_atts t).
Proof.
  unfold add_att. destruct (existsb _ _); [auto|]. cbn [ctx_atts]. rewrite in_app_iff. cbn. intuition.
Qed.
Lemma add_att_nodup t a : List.NoDup (map fst (ctx_atts t)) -> List.NoDup (map fst (ctx_atts (add_att t a))).
Proof.
  unfold add_att. intros H. destruct (existsb _ _) eqn:E; [assumption|]. cbn [ctx_atts]. rewrite map_app. cbn [map].
  apply NoDup_ListNoDup, NoDup_app. split_and!.
  - now apply NoDup_ListNoDup.
  - intros x Hx Hy. apply elem_of_list_singleton in Hy. subst x. apply elem_of_list_In, in_map_iff in Hx as (p & E2 & Hp).
    apply not_true_iff_false in E. apply E, existsb_exists. exists p. split; [exact Hp|]. now apply N.eqb_eq.
  - apply NoDup_singleton.
Qed.
Lemma add_att_new t a : ~ In (fst a) (map fst (ctx_atts t)) -> ctx_atts (add_att t a) = ctx_atts t ++ [a].
Proof.
  unfold add_att. intros H. destruct (existsb _ _) eqn:E; [|reflexivity]. apply existsb_exists in E as (p & Hp & E).
  apply N.eqb_eq in E. destruct H. rewrite <- E. now apply in_map.
Qed.

Section P.
  Variable sha : bytes -> hash.
  Variable pk_parse : N -> bool.
  Variable schnorr : N -> hash -> N -> bool.
  Variable pub_of : N -> N.
  Variable ssign : N -> hash -> N.

  Lemma compact_of_hash tx t : compact_of sha tx t -> ctx_hash sha t = ctx_hash sha (to_compact sha tx).
  Proof. unfold ctx_hash. intros (A & B & C). now rewrite A, B, C. Qed.

  (** Vouching. *)
  Lemma vouch s tx a : typed_tx tx -> validate_transaction sha pk_parse schnorr pub_of ssign s tx = VAttest a ->
    valid_tx sha pk_parse schnorr tx /\
    exists sk, se_key s = Some sk /\ a = (pub_of sk, ssign sk (ctx_hash sha (to_compact sha tx))).
  Proof.
    intros T. unfold validate_transaction, attest. destruct (check_tx sha pk_parse schnorr tx) eqn:C; try discriminate.
    destruct (se_key s) as [sk|]; [|discriminate]. intros H. injection H as <-.
    split; [now apply check_tx_accepts|]. eauto.
  Qed.
  Lemma vouch_iff s tx sk : typed_tx tx -> se_key s = Some sk ->
    (valid_tx sha pk_parse schnorr tx /\
     validate_transaction sha pk_parse schnorr pub_of ssign s tx =
       VAttest (pub_of sk, ssign sk (ctx_hash sha (to_compact sha tx)))) \/
    (~ valid_tx sha pk_parse schnorr tx /\ validate_transaction sha pk_parse schnorr pub_of ssign s tx = VRefuse).
  Proof.
    intros T K. unfold validate_transaction, attest. rewrite K.
    destruct (check_tx sha pk_parse schnorr tx) eqn:C.
    - left. split; [now apply check_tx_accepts|reflexivity].
    - right. split; [|reflexivity]. intros V. apply check_tx_accepts in V; [congruence|assumption].
    - now apply check_tx_no_oob in C.
  Qed.

  (** Gathering. *)
  Lemma gather_ready fuel draws ask s : forall n t req t', gather fuel draws ask s n t req = GReady t' ->
    se_threshold s <= len (ctx_atts t') /\
    ctx_id t' = ctx_id t /\ ctx_inputs t' = ctx_inputs t /\ ctx_outputs t' = ctx_outputs t /\
    (List.NoDup (map fst (ctx_atts t)) -> List.NoDup (map fst (ctx_atts t'))) /\
    (forall p, In p (ctx_atts t') -> In p (ctx_atts t) \/ exists n k, ask n k = Some (Some p)).
  Proof.
    induction fuel as [|f IH]; intros n t req t'; cbn [gather]; destruct (len (ctx_atts t) <? se_threshold s) eqn:L.
    - discriminate.
    - intros H. injection H as <-. apply N.ltb_ge in L. split_and!; auto.
    - destruct (bool_decide _); [apply IH|]. destruct (_ <=? _)%nat; [discriminate|].
      destruct (ask n (draws n)) as [[a|]|] eqn:A; [|discriminate|apply IH].
      intros H. apply IH in H as (H1 & H2 & H3 & H4 & H5 & H6).
      destruct (add_att_same t a) as (E1 & E2 & E3). split_and!; try congruence.
      + intros ND. apply H5. now apply add_att_nodup.
      + intros p Hp. destruct (H6 p Hp) as [Q|Q]; [|auto]. apply add_att_in in Q as [->|Q]; eauto.
    - intros H. injection H as <-. apply N.ltb_ge in L. split_and!; auto.
  Qed.

  (** The transaction that gathering starts from. *)
  Definition started (s : sentinel) (tx : full_tx) (t : compact_tx) : Prop :=
    t = to_compact sha tx \/
    exists sk, se_key s = Some sk /\
      t = add_att (to_compact sha tx) (pub_of sk, ssign sk (ctx_hash sha (to_compact sha tx))).
  Lemma started_props s tx t : started s tx t ->
    compact_of sha tx t /\ List.NoDup (map fst (ctx_atts t)) /\
    forall p, In p (ctx_atts t) -> exists sk, se_key s = Some sk /\ p = (pub_of sk, ssign sk (ctx_hash sha (to_compact sha tx))).
  Proof.
    intros [->|(sk & K & ->)].
    - split; [repeat split|]. split; [constructor|]. intros p [].
    - split; [apply add_att_same|]. split; [apply add_att_nodup; constructor|].
      intros p Hp. apply add_att_in in Hp as [->|[]]. eauto.
  Qed.

  Lemma ready_good s others tx t fuel draws ask t' : typed_tx tx ->
    started s tx t -> gather fuel draws ask s 0 t [] = GReady t' ->
    compact_of sha tx t' /\ List.NoDup (map fst (ctx_atts t')) /\ se_threshold s <= len (ctx_atts t') /\
    (peers_honest sha pk_parse schnorr pub_of ssign others tx ask ->
     forall pk sg, In (pk, sg) (ctx_atts t') ->
       In pk (public_keys pub_of (s :: others)) /\
       exists sk, pk = pub_of sk /\ sg = ssign sk (ctx_hash sha t')).
  Proof.
    intros T ST G. destruct (started_props _ _ _ ST) as ((C1 & C2 & C3) & ND & A).
    apply gather_ready in G as (G1 & G2 & G3 & G4 & G5 & G6).
    assert (CO : compact_of sha tx t') by (repeat split; congruence).
    split; [exact CO|]. split; [auto|]. split; [exact G1|].
    intros PH pk sg Hp. rewrite (compact_of_hash _ _ CO). destruct (G6 _ Hp) as [Q|(n & k & Q)].
    - destruct (A _ Q) as (sk & K & E). injection E as -> ->. split; [|eauto].
      unfold public_keys. cbn [map concat]. rewrite K. now left.
    - destruct (PH _ _ _ Q) as (o & Ho & V). destruct (vouch _ _ _ T V) as (_ & sk & K & E). injection E as -> ->.
      split; [|eauto]. unfold public_keys. cbn [map concat]. apply in_or_app. right. apply in_concat.
      exists [pub_of sk]. split; [|now left]. apply in_map_iff. exists o. rewrite K. split; [reflexivity|].
      now apply nth_error_In in Ho.
  Qed.
  Lemma ready_attested s others tx t fuel draws ask t' known : typed_tx tx ->
    keys_work pk_parse schnorr pub_of ssign ->
    started s tx t -> gather fuel draws ask s 0 t [] = GReady t' ->
    peers_honest sha pk_parse schnorr pub_of ssign others tx ask ->
    (forall pk, In pk (public_keys pub_of (s :: others)) -> In pk known) ->
    check_attestations sha pk_parse schnorr t' known (se_threshold s) = true.
  Proof.
    intros T KW ST G PH IK. destruct (ready_good _ others _ _ _ _ _ _ T ST G) as (CO & ND & TH & A).
    unfold check_attestations. destruct (N.ltb_spec (len (ctx_atts t')) (se_threshold s)); [lia|].
    apply forallb_forall. intros [pk sg] Hp. destruct (A PH _ _ Hp) as (IN & sk & -> & ->).
    destruct (KW sk (ctx_hash sha t')) as [P V]. unfold ctx_verify. cbn [fst snd]. rewrite P, V.
    rewrite bool_decide_eq_true_2; [reflexivity|]. apply elem_of_list_In. auto.
  Qed.

  Lemma execute_2pc_cases fuel draws ask coord s tx sub ans :
    execute_2pc sha pk_parse schnorr pub_of ssign fuel draws ask coord s tx = XDone sub ans ->
    (exists e, check_tx sha pk_parse schnorr tx = Rejected e /\ sub = None /\ ans = Some (Response StStaticInvalid (Some e))) \/
    (check_tx sha pk_parse schnorr tx = Accepted /\ exists t, started s tx t /\
       ((sub = None /\ ans = None /\ gather fuel draws ask s 0 t [] = GRefused) \/
        exists t', gather fuel draws ask s 0 t [] = GReady t' /\ sub = Some t' /\
          ans = match coord t' with
                | None => None
                | Some true => Some (Response StConfirmed None)
                | Some false => Some (Response StStateInvalid None)
                end)).
  Proof.
    unfold execute_2pc. destruct (check_tx sha pk_parse schnorr tx) as [|e|] eqn:C; [|intros H; injection H as <- <-; left; eauto|discriminate].
    intros H. right. split; [reflexivity|].
    set (o := if 0 <? se_threshold s then option_map (add_att (to_compact sha tx)) (attest sha pub_of ssign s (to_compact sha tx)) else Some (to_compact sha tx)) in H.
    destruct o as [t|] eqn:O; [|discriminate]. exists t. split.
    - unfold o, attest in O. destruct (0 <? se_threshold s); [|injection O as <-; now left].
      destruct (se_key s) as [sk|] eqn:K; [|discriminate]. cbn in O. injection O as <-. right. eauto.
    - destruct (gather fuel draws ask s 0 t []) as [t'| | |] eqn:G; try discriminate.
      + injection H as <- <-. right. eauto.
      + injection H as <- <-. auto.
  Qed.
  Lemma submit_2pc fuel draws ask coord s others tx t ans known : typed_tx tx ->
    execute_2pc sha pk_parse schnorr pub_of ssign fuel draws ask coord s tx = XDone (Some t) ans ->
    valid_tx sha pk_parse schnorr tx /\ compact_of sha tx t /\
    List.NoDup (map fst (ctx_atts t)) /\ se_threshold s <= len (ctx_atts t) /\
    (keys_work pk_parse schnorr pub_of ssign ->
     peers_honest sha pk_parse schnorr pub_of ssign others tx ask ->
     (forall pk, In pk (public_keys pub_of (s :: others)) -> In pk known) ->
     check_attestations sha pk_parse schnorr t known (se_threshold s) = true).
  Proof.
    intros T H. apply execute_2pc_cases in H as [(e & _ & H & _)|(C & t0 & ST & [(H & _)|(t' & G & E & _)])]; try discriminate.
    injection E as ->. destruct (ready_good _ others _ _ _ _ _ _ T ST G) as (CO & ND & TH & A).
    split; [now apply check_tx_accepts|]. split; [exact CO|]. split; [exact ND|]. split; [exact TH|].
    intros. eapply ready_attested; eauto.
  Qed.
  Lemma answer_2pc fuel draws ask coord s tx sub r : typed_tx tx ->
    execute_2pc sha pk_parse schnorr pub_of ssign fuel draws ask coord s tx = XDone sub (Some r) ->
    match rs_status r with
    | StConfirmed => exists t, sub = Some t /\ coord t = Some true
    | StStateInvalid => exists t, sub = Some t /\ coord t = Some false
    | StStaticInvalid => sub = None /\ exists e, rs_error r = Some e /\ first_fault sha pk_parse schnorr tx e
    | StPending => False
    end.
  Proof.
    intros T H. apply execute_2pc_cases in H as [(e & C & -> & H)|(C & t0 & ST & [(_ & H & _)|(t' & G & -> & H)])]; try discriminate.
    - injection H as ->. cbn. split; [reflexivity|]. exists e. split; [reflexivity|]. now apply check_tx_rejects.
    - destruct (coord t') as [[]|] eqn:K; try discriminate; injection H as ->; cbn; eauto.
  Qed.
  Lemma forward_atomizer fuel draws ask s others tx t ans known : typed_tx tx ->
    execute_atomizer sha pk_parse schnorr pub_of ssign fuel draws ask s tx = (FShards t, ans) ->
    valid_tx sha pk_parse schnorr tx /\ compact_of sha tx t /\
    List.NoDup (map fst (ctx_atts t)) /\ se_threshold s <= len (ctx_atts t) /\
    (keys_work pk_parse schnorr pub_of ssign ->
     peers_honest sha pk_parse schnorr pub_of ssign others tx ask ->
     (forall pk, In pk (public_keys pub_of (s :: others)) -> In pk known) ->
     check_attestations sha pk_parse schnorr t known (se_threshold s) = true).
  Proof.
    intros T. unfold execute_atomizer. destruct (check_tx sha pk_parse schnorr tx) eqn:C; try discriminate.
    unfold attest. destruct (se_key s) as [sk|] eqn:K; [|discriminate]. cbn [option_map].
    set (t0 := add_att _ _). destruct (gather fuel draws ask s 0 t0 []) as [t'| | |] eqn:G; try discriminate.
    intros H. injection H as -> <-. assert (ST : started s tx t0) by (right; eauto).
    destruct (ready_good _ others _ _ _ _ _ _ T ST G) as (CO & ND & TH & A).
    split; [now apply check_tx_accepts|]. split; [exact CO|]. split; [exact ND|]. split; [exact TH|].
    intros. eapply ready_attested; eauto.
  Qed.

  Lemma uhs_outputs_len id outs : forall i, length (uhs_outputs_from sha id i outs) = length outs.
  Proof. induction outs as [|o r IH]; intros i; cbn; [reflexivity|now rewrite IH]. Qed.
  Lemma uhs_outputs_fit id outs : sha_fits sha -> forall i, Forall (fun h => h < 256 ^ 32) (uhs_outputs_from sha id i outs).
  Proof. intros F. induction outs as [|o r IH]; intros i; cbn; constructor; [apply F|apply IH]. Qed.
  Lemma to_compact_typed tx : sha_fits sha -> typed_full_tx tx -> typed_compact_tx (to_compact sha tx).
  Proof.
    intros F [[[LI _] [LO _]] _]. cbn [fst snd] in *. unfold typed_compact_tx, to_compact.
    split; [split; [split|]|]; cbn [fst snd ctx_id ctx_inputs ctx_outputs ctx_atts].
    - apply F.
    - split; [unfold len in *; now rewrite map_length|]. apply Forall_forall. intros h Hh.
      apply elem_of_list_In, in_map_iff in Hh as (i & <- & _). apply F.
    - split; [unfold len in *; now rewrite uhs_outputs_len|]. now apply uhs_outputs_fit.
    - split; [vm_compute; reflexivity|]. split; [constructor|constructor].
  Qed.

  (** Whom an attestation protects. *)
  Lemma pigeon (ks bad : list N) : List.NoDup ks -> (length bad < length ks)%nat -> exists k, In k ks /\ ~ In k bad.
  Proof.
    intros ND L. destruct (List.Exists_dec (fun k => ~ In k bad) ks) as [E|E].
    - intros k. destruct (in_dec N.eq_dec k bad); [right; tauto|now left].
    - apply List.Exists_exists in E. exact E.
    - exfalso. assert (I : incl ks bad).
      { intros k Hk. destruct (in_dec N.eq_dec k bad); [assumption|]. destruct E. apply List.Exists_exists. eauto. }
      pose proof (NoDup_incl_length ND I). lia.
  Qed.
  Lemma attested_valid t known threshold bad : typed_compact_tx t -> sha_fits sha ->
    check_attestations sha pk_parse schnorr t known threshold = true ->
    len bad < threshold ->
    (forall pk, In pk known -> ~ In pk bad -> honest_key sha pk_parse schnorr pk) ->
    (exists tx, valid_tx sha pk_parse schnorr tx /\ compact_of sha tx t) \/ collision sha.
  Proof.
    intros T FI C LB HK. apply check_attestations_exact in C; [|assumption]. destruct C as [(ks & ND & LK & A) _].
    destruct (pigeon ks bad ND) as (pk & Hpk & NB); [unfold len in LB; lia|].
    destruct (A _ Hpk) as (IK & sg & _ & _ & V). destruct (HK pk IK NB _ _ V) as (tx & TT & VT & E).
    destruct (compact_hash_commits sha t (to_compact sha tx)) as [(E1 & E2 & E3)|]; auto.
    - now apply to_compact_typed.
    - left. exists tx. split; [exact VT|]. repeat split; assumption.
  Qed.

  (** Liveness. *)
  Lemma gather_step_skip f draws ask s n t req : len (ctx_atts t) < se_threshold s -> draws n ∈ req ->
    gather (S f) draws ask s n t req = gather f draws ask s (S n) t req.
  Proof.
    intros L D. cbn [gather]. apply N.ltb_lt in L. rewrite L. rewrite bool_decide_eq_true_2; [reflexivity|assumption].
  Qed.
  Lemma gather_step_new f draws ask s n t req a : len (ctx_atts t) < se_threshold s -> draws n ∉ req ->
    (draws n < se_peers s)%nat -> ask n (draws n) = Some (Some a) ->
    gather (S f) draws ask s n t req = gather f draws ask s (S n) (add_att t a) (draws n :: req).
  Proof.
    intros L D B A. cbn [gather]. apply N.ltb_lt in L. rewrite L, A.
    rewrite bool_decide_eq_false_2; [|assumption]. destruct (Nat.leb_spec (se_peers s) (draws n)); [lia|reflexivity].
  Qed.
  Lemma gather_ends draws ask s key own : fair (se_peers s) draws -> in_bounds (se_peers s) draws ->
    (forall n k, (k < se_peers s)%nat -> exists sg, ask n k = Some (Some (key k, sg))) ->
    (forall j k, (j < se_peers s)%nat -> (k < se_peers s)%nat -> key j = key k -> j = k) ->
    (forall k, (k < se_peers s)%nat -> ~ In (key k) own) ->
    se_threshold s <= len own + N.of_nat (se_peers s) ->
    forall r n t req, base.NoDup req -> Forall (fun k => (k < se_peers s)%nat) req -> (se_peers s - length req = r)%nat ->
      map fst (ctx_atts t) = own ++ map key (rev req) ->
      exists fuel t', gather fuel draws ask s n t req = GReady t'.
  Proof.
    intros FA IB AN INJ FR TH. induction r as [r IH] using lt_wf_ind. intros n t req ND FB ER AT.
    assert (LT : len (ctx_atts t) = len own + N.of_nat (length req)).
    { unfold len. rewrite <- (map_length fst), AT, app_length, map_length, rev_length. lia. }
    destruct (N.ltb_spec (len (ctx_atts t)) (se_threshold s)) as [L|L].
    2: { exists 0%nat, t. cbn. destruct (N.ltb_spec (len (ctx_atts t)) (se_threshold s)); [lia|reflexivity]. }
    assert (EX : exists k, (k < se_peers s)%nat /\ k ∉ req).
    { destruct (List.Exists_dec (fun k => k ∉ req) (seq 0 (se_peers s))) as [E|E].
      - intros k. destruct (decide (k ∈ req)); [right; tauto|now left].
      - apply List.Exists_exists in E as (k & Hk & NK). apply in_seq in Hk. exists k. split; [lia|exact NK].
      - exfalso. assert (I : incl (seq 0 (se_peers s)) req).
        { intros k Hk. destruct (decide (k ∈ req)) as [D|D]; [now apply elem_of_list_In|].
          destruct E. apply List.Exists_exists. eauto. }
        pose proof (NoDup_incl_length (seq_NoDup _ _) I) as Q. rewrite seq_length in Q. lia. }
    destruct EX as (k & Bk & Nk). destruct (FA n k Bk) as (m & Hm & Dm).
    remember (m - n)%nat as d eqn:Ed. revert n Hm Ed. induction d as [|d IHd]; intros n Hm Ed.
    - assert (m = n) by lia. subst m.
      destruct (AN n (draws n)) as (sg & A); [rewrite Dm; exact Bk|].
      destruct (IH (se_peers s - length (draws n :: req))%nat) with (n := S n) (t := add_att t (key (draws n), sg)) (req := draws n :: req) as (f & t' & G).
      + cbn [length]. assert (length req < se_peers s)%nat.
        { assert (length (k :: req) <= se_peers s)%nat; [|cbn in *; lia]. rewrite <- (seq_length (se_peers s) 0).
          apply NoDup_incl_length; [constructor; [now rewrite <- elem_of_list_In|now apply NoDup_ListNoDup]|].
          intros x [<-|Hx]; apply in_seq; [lia|]. rewrite Forall_forall in FB. apply elem_of_list_In, FB in Hx. lia. }
        lia.
      + constructor; [now rewrite Dm|assumption].
      + constructor; [now rewrite Dm|assumption].
      + reflexivity.
      + rewrite add_att_new; [now rewrite map_app, AT; cbn [map rev fst]; rewrite map_app, app_assoc|].
        cbn [fst]. rewrite AT, in_app_iff. intros [Q|Q]; [apply (FR (draws n)); [rewrite Dm; exact Bk|exact Q]|].
        apply in_map_iff in Q as (j & E & Hj). rewrite <- in_rev in Hj. apply elem_of_list_In in Hj.
        assert (Bj : (j < se_peers s)%nat) by (rewrite Forall_forall in FB; auto).
        apply INJ in E; [|exact Bj|rewrite Dm; exact Bk]. subst j. rewrite Dm in Hj. contradiction.
      + exists (S f), t'. rewrite (gather_step_new f draws ask s n t req (key (draws n), sg) L); [exact G| | |exact A]; rewrite Dm; assumption.
    - destruct (decide (draws n ∈ req)) as [D|D].
      + destruct (IHd (S n)) as (f & t' & G); [lia|lia|]. exists (S f), t'. now rewrite gather_step_skip.
      + destruct (AN n (draws n) (IB n)) as (sg & A).
        destruct (IH (se_peers s - length (draws n :: req))%nat) with (n := S n) (t := add_att t (key (draws n), sg)) (req := draws n :: req) as (f & t' & G).
        * cbn [length]. assert (length req < se_peers s)%nat.
          { assert (length (k :: req) <= se_peers s)%nat; [|cbn in *; lia]. rewrite <- (seq_length (se_peers s) 0).
            apply NoDup_incl_length; [constructor; [now rewrite <- elem_of_list_In|now apply NoDup_ListNoDup]|].
            intros x [<-|Hx]; apply in_seq; [lia|]. rewrite Forall_forall in FB. apply elem_of_list_In, FB in Hx. lia. }
          lia.
        * constructor; assumption.
        * constructor; [apply IB|assumption].
        * reflexivity.
        * rewrite add_att_new; [now rewrite map_app, AT; cbn [map rev fst]; rewrite map_app, app_assoc|].
          cbn [fst]. rewrite AT, in_app_iff. intros [Q|Q]; [now apply (FR (draws n) (IB n))|].
          apply in_map_iff in Q as (j & E & Hj). rewrite <- in_rev in Hj. apply elem_of_list_In in Hj.
          assert (Bj : (j < se_peers s)%nat) by (rewrite Forall_forall in FB; auto).
          apply INJ in E; [|exact Bj|apply IB]. subst j. contradiction.
        * exists (S f), t'. rewrite (gather_step_new f draws ask s n t req (key (draws n), sg) L D); [exact G|apply IB|exact A].
  Qed.
  Lemma to_compact_atts tx : ctx_atts (to_compact sha tx) = [].
  Proof. reflexivity. Qed.
  Lemma answers_2pc draws ask coord s sk tx : typed_tx tx -> valid_tx sha pk_parse schnorr tx -> se_key s = Some sk ->
    fair (se_peers s) draws -> in_bounds (se_peers s) draws -> peers_answer (se_peers s) ask [pub_of sk] ->
    se_threshold s <= 1 + N.of_nat (se_peers s) ->
    exists fuel t, execute_2pc sha pk_parse schnorr pub_of ssign fuel draws ask coord s tx =
      XDone (Some t) (match coord t with
                      | None => None
                      | Some true => Some (Response StConfirmed None)
                      | Some false => Some (Response StStateInvalid None)
                      end).
  Proof.
    intros T V K FA IB (key & AN & INJ & FR) TH.
    assert (C : check_tx sha pk_parse schnorr tx = Accepted) by now apply check_tx_accepts.
    unfold execute_2pc, attest. rewrite C, K. cbn [option_map].
    destruct (N.ltb_spec 0 (se_threshold s)) as [P|P].
    - destruct (gather_ends draws ask s key [pub_of sk] FA IB AN INJ FR) with (r := (se_peers s)%nat) (n := 0%nat) (req := @nil nat)
        (t := add_att (to_compact sha tx) (pub_of sk, ssign sk (ctx_hash sha (to_compact sha tx)))) as (f & t' & G).
      + cbn. lia.
      + constructor.
      + constructor.
      + cbn. lia.
      + rewrite add_att_new; [reflexivity|]. intros [].
      + exists f, t'. rewrite G. reflexivity.
    - exists 0%nat, (to_compact sha tx). cbn [gather]. rewrite to_compact_atts.
      destruct (N.ltb_spec (len (A := N * N) []) (se_threshold s)); [lia|reflexivity].
  Qed.

  (** More attestations wanted than there are sentinels. *)
  Lemma gather_forever fuel draws ask s : in_bounds (se_peers s) draws ->
    (forall n k, ask n k <> Some None) ->
    forall n t req, base.NoDup req -> Forall (fun k => (k < se_peers s)%nat) req ->
      (length (ctx_atts t) <= 1 + length req)%nat -> 1 + N.of_nat (se_peers s) < se_threshold s ->
      gather fuel draws ask s n t req = GRunning.
  Proof.
    intros IB NR. induction fuel as [|f IH]; intros n t req ND FB LA TH;
      (assert (LR : (length req <= se_peers s)%nat) by
       (rewrite <- (seq_length (se_peers s) 0); apply NoDup_incl_length; [now apply NoDup_ListNoDup|];
        intros x Hx; apply in_seq; rewrite Forall_forall in FB; apply elem_of_list_In, FB in Hx; lia));
      (assert (L : len (ctx_atts t) <? se_threshold s = true) by (apply N.ltb_lt; unfold len; lia)); cbn [gather]; rewrite L; [reflexivity|].
    destruct (bool_decide (draws n ∈ req)) eqn:D; [now apply IH|]. apply bool_decide_eq_false in D.
    destruct (Nat.leb_spec (se_peers s) (draws n)) as [X|X]; [specialize (IB n); lia|].
    destruct (ask n (draws n)) as [[a|]|] eqn:A; [|now apply NR in A|now apply IH].
    apply IH; auto.
    - constructor; assumption.
    - unfold add_att. destruct (existsb _ _); cbn [ctx_atts length]; [lia|]. rewrite app_length. cbn. lia.
  Qed.
  Lemma never_2pc fuel draws ask coord s sk tx : typed_tx tx -> valid_tx sha pk_parse schnorr tx -> se_key s = Some sk ->
    in_bounds (se_peers s) draws -> (forall n k, ask n k <> Some None) ->
    1 + N.of_nat (se_peers s) < se_threshold s ->
    execute_2pc sha pk_parse schnorr pub_of ssign fuel draws ask coord s tx = XRunning.
  Proof.
    intros T V K IB NR TH.
    assert (C : check_tx sha pk_parse schnorr tx = Accepted) by now apply check_tx_accepts.
    unfold execute_2pc, attest. rewrite C, K. cbn [option_map].
    destruct (N.ltb_spec 0 (se_threshold s)) as [P|P]; [|lia].
    rewrite gather_forever; [reflexivity|exact IB|exact NR|apply NoDup_nil_2|apply Forall_nil_2|cbn; lia|exact TH].
  Qed.
  (** No other sentinels at all. *)
  Lemma alone_2pc fuel draws ask coord s sk tx : typed_tx tx -> valid_tx sha pk_parse schnorr tx -> se_key s = Some sk ->
    se_peers s = 0%nat -> 1 < se_threshold s ->
    execute_2pc sha pk_parse schnorr pub_of ssign (S fuel) draws ask coord s tx = XCrash.
  Proof.
    intros T V K P0 TH.
    assert (C : check_tx sha pk_parse schnorr tx = Accepted) by now apply check_tx_accepts.
    unfold execute_2pc, attest. rewrite C, K. cbn [option_map].
    destruct (N.ltb_spec 0 (se_threshold s)) as [P|P]; [|lia].
    cbn [gather]. rewrite add_att_new; [|intros []]. cbn [app to_compact ctx_atts].
    destruct (N.ltb_spec (len [(pub_of sk, ssign sk (ctx_hash sha (to_compact sha tx)))]) (se_threshold s)) as [Q|Q];
      [|unfold len in Q; cbn in Q; lia].
    rewrite bool_decide_eq_false_2; [|apply not_elem_of_nil]. rewrite P0. reflexivity.
  Qed.
  (** A sentinel that was started without a key. *)
  Lemma no_key s tx : typed_tx tx -> valid_tx sha pk_parse schnorr tx -> se_key s = None ->
    validate_transaction sha pk_parse schnorr pub_of ssign s tx = VCrash.
  Proof.
    intros T V K. unfold validate_transaction, attest. rewrite K.
    assert (C : check_tx sha pk_parse schnorr tx = Accepted) by now apply check_tx_accepts. now rewrite C.
  Qed.
  Lemma no_crash_2pc fuel draws ask coord s tx : typed_tx tx -> init_2pc s = true -> in_bounds (se_peers s) draws ->
    execute_2pc sha pk_parse schnorr pub_of ssign fuel draws ask coord s tx <> XCrash.
  Proof.
    intros T I IB H. unfold execute_2pc in H. destruct (check_tx sha pk_parse schnorr tx) eqn:C; [|discriminate|now apply check_tx_no_oob in C].
    assert (NG : forall f n t req, gather f draws ask s n t req <> GOob).
    { induction f as [|f IH]; intros n t req; cbn [gather]; destruct (len (ctx_atts t) <? se_threshold s); try discriminate.
      destruct (bool_decide (draws n ∈ req)); [apply IH|]. destruct (Nat.leb_spec (se_peers s) (draws n)) as [X|X]; [specialize (IB n); lia|].
      destruct (ask n (draws n)) as [[a|]|]; [apply IH|discriminate|apply IH]. }
    unfold attest, init_2pc in *. destruct (se_key s) as [sk|].
    - cbn [option_map] in H. set (t0 := add_att _ _) in H. destruct (0 <? se_threshold s);
        match type of H with context [gather ?a ?b ?c ?d ?e ?f ?g] => specialize (NG a e f g); destruct (gather a b c d e f g) end; congruence.
    - destruct (0 <? se_threshold s); [discriminate|].
      match type of H with context [gather ?a ?b ?c ?d ?e ?f ?g] => specialize (NG a e f g); destruct (gather a b c d e f g) end; congruence.
  Qed.
End P.

(** Sending to the shards. *)
Lemma send_inputs_spec range inputs i js : forall sent, base.NoDup js -> (forall j, j ∈ js -> j ∉ sent) ->
  send_inputs range inputs i js sent =
    match js with
    | [] => Some (sent, false)
    | _ => match nth_error inputs i with
           | None => None
           | Some h => if in_range range h then Some (rev js ++ sent, true) else Some (sent, false)
           end
    end.
Proof.
  induction js as [|j js IH]; intros sent ND DJ; [reflexivity|]. cbn [send_inputs].
  rewrite bool_decide_eq_false_2; [|apply DJ; now left]. inversion ND as [|? ? Nj ND']; subst.
  destruct (nth_error inputs i) as [h|] eqn:E; [|reflexivity]. destruct (in_range range h) eqn:R.
  - rewrite IH; [|assumption|].
    + destruct js as [|j2 js]; [reflexivity|]. cbn [rev]. rewrite <- !app_assoc. reflexivity.
    + intros x Hx. rewrite not_elem_of_cons. split; [intros ->; contradiction|]. apply DJ. now right.
  - rewrite IH; [destruct js; reflexivity|assumption|]. intros x Hx. apply DJ. now right.
Qed.
Lemma send_full shards inputs offset n i sent : length sent = length inputs ->
  send_rounds shards inputs offset n i sent = Some [].
Proof. intros E. destruct n; [reflexivity|]. cbn [send_rounds]. rewrite E, Nat.eqb_refl. reflexivity. Qed.
(** One round, as long as nothing was sent. *)
Lemma send_round shards inputs offset n i range connected : inputs <> [] ->
  nth_error shards (Nat.modulo (i + offset) (length shards)) = Some (range, connected) ->
  send_rounds shards inputs offset (S n) i [] =
    if connected
    then match nth_error inputs i with
         | None => None
         | Some h => if in_range range h then Some [Nat.modulo (i + offset) (length shards)]
                     else send_rounds shards inputs offset n (S i) []
         end
    else send_rounds shards inputs offset n (S i) [].
Proof.
  intros NE E. cbn [send_rounds]. rewrite E. destruct inputs as [|h0 r] eqn:EI; [contradiction|]. cbn [length Nat.eqb].
  destruct connected; [|reflexivity]. cbn [negb].
  rewrite send_inputs_spec; [|apply NoDup_ListNoDup, seq_NoDup|intros; apply not_elem_of_nil]. cbn [seq].
  destruct (nth_error (h0 :: r) i) as [h|]; [|reflexivity]. destruct (in_range range h).
  - rewrite send_full; [reflexivity|]. rewrite app_nil_r, rev_length. cbn [length]. now rewrite seq_length.
  - destruct (send_rounds _ _ _ n (S i) []); reflexivity.
Qed.
Lemma send_one shards inputs offset n : forall i l, send_rounds shards inputs offset n i [] = Some l -> (length l <= 1)%nat.
Proof.
  induction n as [|n IH]; intros i l H; [injection H as <-; cbn; lia|].
  destruct inputs as [|h0 r] eqn:EI; [cbn in H; injection H as <-; cbn; lia|]. rewrite <- EI in *.
  destruct (nth_error shards (Nat.modulo (i + offset) (length shards))) as [[range connected]|] eqn:E.
  - rewrite (send_round _ _ _ _ _ range connected) in H; [|subst; discriminate|exact E].
    destruct connected; [|now apply IH in H]. destruct (nth_error inputs i); [|discriminate].
    destruct (in_range range _); [injection H as <-; cbn; lia|now apply IH in H].
  - cbn [send_rounds] in H. rewrite E, EI in H. cbn [length Nat.eqb] in H. discriminate.
Qed.
Lemma at_most_one shards offset t l : send_to_shards shards offset t = Some l -> (length l <= 1)%nat.
Proof. apply send_one. Qed.
Lemma two_shards_missed shards offset t l h1 h2 k1 k2 : disjoint_shards shards ->
  In h1 (ctx_inputs t) -> In h2 (ctx_inputs t) ->
  holds_input shards k1 h1 -> holds_input shards k2 h2 -> k1 <> k2 ->
  send_to_shards shards offset t = Some l ->
  exists h k, In h (ctx_inputs t) /\ holds_input shards k h /\ ~ In k l.
Proof.
  intros DJ I1 I2 H1 H2 NE S. apply at_most_one in S. destruct l as [|k l].
  - exists h1, k1. auto.
  - destruct l; [|cbn in S; lia]. destruct (Nat.eq_dec k k1) as [->|N1].
    + exists h2, k2. split; [assumption|]. split; [assumption|]. intros [E|[]]. congruence.
    + exists h1, k1. split; [assumption|]. split; [assumption|]. intros [E|[]]. congruence.
Qed.
Lemma one_input_sent shards offset t h k : disjoint_shards shards -> ctx_inputs t = [h] ->
  Forall (fun s => snd s = true) shards -> (2 <= length shards)%nat -> holds_input shards k h ->
  send_to_shards shards offset t = if Nat.eqb (Nat.modulo offset (length shards)) k then Some [k] else None.
Proof.
  intros DJ EI CN L2 (r & c & Ek & Rk). unfold send_to_shards. rewrite EI.
  assert (EQ : exists n, length shards = S (S n)) by (exists (length shards - 2)%nat; lia). destruct EQ as [n EL]. rewrite EL at 1.
  set (k0 := Nat.modulo offset (length shards)). assert (B0 : (k0 < length shards)%nat) by (apply Nat.mod_upper_bound; lia).
  assert (X : forall i, exists r, nth_error shards (Nat.modulo (i + offset) (length shards)) = Some (r, true)).
  { intros i. destruct (nth_error shards (Nat.modulo (i + offset) (length shards))) as [[r' c']|] eqn:E.
    - rewrite Forall_forall in CN. assert (c' = true) as ->; [|eauto].
      apply nth_error_In, elem_of_list_In, CN in E. exact E.
    - apply nth_error_None in E. pose proof (Nat.mod_upper_bound (i + offset) (length shards)). lia. }
  destruct (X 0%nat) as [r0 E0]. rewrite (send_round _ _ _ _ _ r0 true); [|discriminate|exact E0]. cbn [nth_error].
  change (0 + offset)%nat with offset in *. fold k0 in E0 |- *.
  destruct (in_range r0 h) eqn:R0.
  - assert (k0 = k) as -> by (apply (DJ k0 k h); [exists r0, true; auto|exists r, c; auto]). now rewrite Nat.eqb_refl.
  - destruct (Nat.eqb_spec k0 k) as [Q|Q].
    + rewrite Q in E0. rewrite E0 in Ek. injection Ek as <- <-. congruence.
    + destruct (X 1%nat) as [r1 E1]. rewrite (send_round _ _ _ _ _ r1 true); [|discriminate|exact E1]. reflexivity.
Qed.
Lemma single_shard_sent range offset t h : nth_error (ctx_inputs t) 0 = Some h -> in_range range h = true ->
  send_to_shards [(range, true)] offset t = Some [0%nat].
Proof.
  intros E R. unfold send_to_shards. cbn [length].
  assert (M : Nat.modulo (0 + offset) 1 = 0%nat) by apply Nat.mod_1_r.
  rewrite (send_round _ _ _ _ _ range true).
  - rewrite E, R. cbn [length]. now rewrite M.
  - intros Q. rewrite Q in E. discriminate.
  - cbn [length]. now rewrite M.
Qed.
