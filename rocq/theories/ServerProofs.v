From stdpp Require Import base option list.
From Coq Require Import NArith Lia.
From Verif Require Import Base CodecModel CodecSpec CodecProofs MsgModel ServerModel ServerSpec.
Open Scope N_scope.

Lemma from_buffer_rt {A} (c : codec A) a q : lawful c -> dom c a ->
  from_buffer c (make_buffer (wr c a) ++ q) = Ok (Some a) (Dst q true).
Proof.
  intros L D. unfold from_buffer. rewrite make_buffer_ok.
  pose proof (l_rt _ L a q D) as R. unfold enc in R. rewrite R. reflexivity.
Qed.

Lemma lawful_request {Q} (cq : codec Q) : lawful cq -> lawful (c_rpc_request cq).
Proof. intros L. exact (lawful_pair _ cq lawful_u64 L). Qed.
Lemma lawful_response {R} (cr : codec R) : lawful cr -> lawful (c_rpc_response cr).
Proof. intros L. exact (lawful_pair _ _ lawful_u64 (lawful_option cr L)). Qed.

Lemma reads_response {R} (cr : codec R) id r : lawful cr -> dom c_u64 id ->
  dom (c_option cr) r -> client_reads cr (serialize_response cr id r) id r.
Proof.
  intros L D Dr. unfold client_reads, serialize_response.
  rewrite <- (app_nil_r (make_buffer _)).
  rewrite (from_buffer_rt _ (id, r) [] (lawful_response cr L) (conj D Dr)). eauto.
Qed.

(** A failure is one in every type. *)
Lemma failure_bytes {R} (cr : codec R) id :
  failure_response id = serialize_response cr id None.
Proof. reflexivity. Qed.
Lemma reads_failure {R} (cr : codec R) id : lawful cr -> dom c_u64 id ->
  client_reads cr (failure_response id) id None.
Proof. intros L D. rewrite (failure_bytes cr). by apply reads_response. Qed.

Lemma u64_read b id s : Forall is_byte b -> from_buffer c_u64 b = Ok (Some id) s ->
  dom c_u64 id.
Proof.
  intros F. unfold from_buffer, c_u64. cbn [dec c_uint].
  destruct (rd (N.of_nat 8) (Dst b true)) as [[x|] s'] eqn:E.
  - intros H. destruct (valid s'); [|discriminate]. injection H as <- _.
    apply rd_inv in E as (-> & Hl & _). apply Forall_app in F as [Fx _].
    cbn [dom c_uint]. pose proof (le_value_bound x Fx) as B.
    unfold len in Hl. apply Nat2N.inj in Hl. by rewrite Hl in B.
  - apply rd_inv in E as (_ & ->). cbn. discriminate.
Qed.

Lemma request_header {Q} (cq : codec Q) b id q s : lawful cq ->
  from_buffer (c_rpc_request cq) b = Ok (Some (id, q)) s ->
  exists s', from_buffer c_u64 b = Ok (Some id) s'.
Proof.
  intros L. unfold from_buffer, c_rpc_request. cbn [dec c_pair].
  destruct (dec c_u64 (Dst b true)) as [x [r v]| |] eqn:E; cbn [bind]; try discriminate.
  destruct (dec cq (Dst r v)) as [y s2| |] eqn:E2; cbn [bind]; try discriminate.
  destruct (valid s2) eqn:V; [|discriminate]. intros [= -> -> _].
  destruct s2 as [r2 v2]; cbn in V; subst. pose proof (l_valid _ _ _ _ _ L E2) as ->.
  cbn [valid]. eauto.
Qed.
Lemma request_id_dom {Q} (cq : codec Q) b id q s : lawful cq -> Forall is_byte b ->
  from_buffer (c_rpc_request cq) b = Ok (Some (id, q)) s -> dom c_u64 id.
Proof. intros L F H. destruct (request_header cq b id q s L H) as [s' E]. by eapply u64_read. Qed.

Lemma from_buffer_fuel {A} (c : codec A) b : lawful c -> from_buffer c b <> NoFuel.
Proof.
  intros L. unfold from_buffer. pose proof (l_fuel _ L (Dst b true)).
  destruct (dec c (Dst b true)) as [a s| |]; [|discriminate|contradiction].
  destruct (valid s); discriminate.
Qed.

(** ** Blocking *)
Lemma blocking_answer {Q R S} (cq : codec Q) (cr : codec R) (h : S -> Q -> S * option R) s id q t :
  lawful cq -> lawful cr -> dom c_u64 id -> dom cq q -> dom (c_option cr) (snd (h s q)) ->
  exists b, blocking_call cq cr (Some h) s (request_packet cq id q ++ t)
            = Done (fst (h s q), Some b) /\ client_reads cr b id (snd (h s q)).
Proof.
  intros Lq Lr Di Dq Dr. unfold blocking_call, deserialize_request, request_packet, encoding.
  rewrite (from_buffer_rt _ (id, q) t (lawful_request cq Lq) (conj Di Dq)).
  destruct (h s q) as [s' r] eqn:E. cbn [fst snd] in *. eexists. split; [reflexivity|].
  by apply reads_response.
Qed.
Lemma blocking_unready {Q R S} (cq : codec Q) (cr : codec R) (s : S) id q t :
  lawful cq -> lawful cr -> dom c_u64 id -> dom cq q ->
  exists b, blocking_call cq cr None s (request_packet cq id q ++ t)
            = Done (s, Some b) /\ client_reads cr b id None.
Proof.
  intros Lq Lr Di Dq. unfold blocking_call, deserialize_request, request_packet, encoding.
  rewrite (from_buffer_rt _ (id, q) t (lawful_request cq Lq) (conj Di Dq)).
  eexists. split; [reflexivity|]. by apply reads_response.
Qed.

(** ** Asynchronous *)
Lemma replies_app c l m : replies c (l ++ m) = replies c l ++ replies c m.
Proof.
  induction l as [|[[c' p] b] r IH]; [reflexivity|]. cbn [replies app].
  by rewrite IH, app_assoc.
Qed.
Lemma replies_same c p (l : list bytes) :
  replies c (map (fun b => (c, p, b)) l) = map (fun b => (p, b)) l.
Proof.
  induction l as [|b r IH]; [reflexivity|]. cbn [map replies].
  by rewrite Nat.eqb_refl, IH.
Qed.
Lemma replies_other c d p (l : list bytes) : c <> d ->
  replies d (map (fun b => (c, p, b)) l) = [].
Proof.
  intros N. induction l as [|b r IH]; [reflexivity|]. cbn [map replies].
  rewrite (proj2 (Nat.eqb_neq c d) N). exact IH.
Qed.

Section async.
Context {Q R : Type} (cq : codec Q) (cr : codec R).
Hypothesis Lq : lawful cq.
Hypothesis Lr : lawful cr.

(** What clients are told about request [c] from here on. *)
Fixpoint told (n c : nat) (l : list (@async_event R)) : list (option R) :=
  match l with
  | [] => []
  | EvRegister :: r => told n c r
  | EvPacket _ b calls ret :: r =>
      if is_request cq b then
        (if Nat.eqb n c then calls ++ (if ret then [] else [None]) else []) ++ told (S n) c r
      else told n c r
  | EvCallback c' v :: r => (if Nat.eqb c' c then [v] else []) ++ told n c r
  end.

Lemma fresh_replies (s : @async Q) : forall c, (length (as_requests s) <= c)%nat ->
  Forall (fun x => (x.1.1 < length (as_requests s))%nat) (as_sent s) ->
  replies c (as_sent s) = [].
Proof.
  intros c Hc F. induction (as_sent s) as [|[[c' p] b] r IH]; [reflexivity|].
  inversion F as [|? ? F1 F2]; subst. cbn [replies]. cbn in F1.
  rewrite (proj2 (Nat.eqb_neq c' c)) by lia. exact (IH F2).
Qed.

Definition sees (p id : N) (x : N * bytes) (r : option R) : Prop :=
  fst x = p /\ client_reads cr (snd x) id r.
Definition as_ok (s : @async Q) : Prop :=
  Forall (fun x => (x.1.1 < length (as_requests s))%nat) (as_sent s) /\
  Forall (fun x : N * N * Q => dom c_u64 (x.1.2)) (as_requests s).

Lemma sees_map p id (c : nat) (l : list (option R)) : dom c_u64 id ->
  Forall (dom (c_option cr)) l ->
  Forall2 (sees p id) (map (fun b => (p, b)) (map (serialize_response cr id) l)) l.
Proof.
  intros D F. induction F as [|r l' Dr _ IH]; [constructor|]. cbn [map].
  constructor; [|exact IH]. split; [reflexivity|]. cbn [snd]. by apply reads_response.
Qed.

Lemma async_told l : Forall (real_event cr) l -> forall s s', as_ok s ->
  async_run cq cr s l = Next s' ->
  as_ok s' /\ (exists new, as_requests s' = as_requests s ++ new) /\
  forall c p id q, as_requests s' !! c = Some (p, id, q) ->
    exists new, replies c (as_sent s') = replies c (as_sent s) ++ new /\
      Forall2 (sees p id) new (told (length (as_requests s)) c l).
Proof.
  induction 1 as [|e l Re _ IH]; intros s s' K H.
  - injection H as <-. split; [exact K|]. split; [exists []; by rewrite app_nil_r|].
    intros c p id q _. exists []. rewrite app_nil_r. split; [reflexivity|constructor].
  - cbn [async_run] in H. destruct (async_step cq cr s e) as [s1| |] eqn:E; try discriminate.
    destruct K as [Ks Kr]. destruct e as [|p b calls ret|c0 r0]; cbn [async_step] in E.
    + injection E as <-. exact (IH (Async true (as_requests s) (as_sent s)) _ (conj Ks Kr) H).
    + destruct Re as [Rb Rc]. unfold deserialize_request in E.
      cbn [told]. unfold is_request.
      destruct (from_buffer (c_rpc_request cq) b) as [[[id q]|] s0| |] eqn:D; try discriminate.
      * destruct (as_handler s); [|discriminate]. injection E as <-.
        pose proof (request_id_dom cq b id q s0 Lq Rb D) as Did.
        set (n := length (as_requests s)) in *.
        set (out := calls ++ (if ret then [] else [None])).
        assert (Eout : map (fun r => (n, p, serialize_response cr id r)) calls
                  ++ (if ret then [] else [(n, p, serialize_response cr id None)])
                = map (fun b => (n, p, b)) (map (serialize_response cr id) out)).
        { unfold out. rewrite !map_app, map_map. by destruct ret. }
        assert (Fout : Forall (dom (c_option cr)) out).
        { apply Forall_app. split; [exact Rc|]. destruct ret; [constructor|].
          constructor; [exact I|constructor]. }
        rewrite Eout in H.
        edestruct IH as (K' & [new Hn] & T); [|exact H|].
        { split; cbn [as_requests as_sent].
          - rewrite app_length. apply Forall_app. split.
            + eapply Forall_impl; [exact Ks|]. intros x Hx. cbn. cbn in Hx. lia.
            + apply Forall_forall. intros x Hx. apply elem_of_list_fmap in Hx as (y & -> & _).
              cbn. fold n. lia.
          - apply Forall_app. split; [exact Kr|]. constructor; [exact Did|constructor]. }
        cbn [as_requests as_sent] in Hn, T. split; [exact K'|]. split.
        { exists ([(p, id, q)] ++ new). by rewrite app_assoc. }
        intros c p' id' q' Hc. destruct (T c p' id' q' Hc) as (nw & Er & F2).
        rewrite app_length in F2. cbn [length] in F2. fold n in F2.
        rewrite Nat.add_1_r in F2. rewrite replies_app in Er.
        destruct (Nat.eqb_spec n c) as [Ec|Nc].
        -- subst c. rewrite replies_same in Er. eexists. rewrite Er, <- app_assoc.
           split; [reflexivity|]. apply Forall2_app; [|exact F2].
           rewrite Hn in Hc. rewrite <- app_assoc in Hc.
           rewrite lookup_app_r in Hc by (fold n; lia).
           fold n in Hc. rewrite Nat.sub_diag in Hc. cbn in Hc. injection Hc as <- <- <-.
           exact (sees_map p id n out Did Fout).
        -- rewrite replies_other in Er by exact Nc. rewrite app_nil_r in Er.
           exists nw. split; [exact Er|exact F2].
      * injection E as <-. exact (IH _ _ (conj Ks Kr) H).
    + destruct (as_requests s !! c0) as [[[p0 id0] q0]|] eqn:L0; [|discriminate].
      injection E as <-. pose proof (lookup_lt_Some _ _ _ L0) as Lt.
      edestruct IH as (K' & [new Hn] & T); [|exact H|].
      { split; cbn [as_requests as_sent]; [|exact Kr].
        apply Forall_app. split; [exact Ks|]. constructor; [exact Lt|constructor]. }
      cbn [as_requests as_sent] in Hn, T. split; [exact K'|]. split; [by exists new|].
      intros c p' id' q' Hc. destruct (T c p' id' q' Hc) as (nw & Er & F2).
      rewrite replies_app in Er. cbn [replies told] in *.
      destruct (Nat.eqb_spec c0 c) as [->|Nc].
      * rewrite app_nil_r, <- app_assoc in Er. eexists. split; [exact Er|].
        cbn [app]. constructor; [|exact F2].
        rewrite Hn, lookup_app_l in Hc by exact Lt. rewrite L0 in Hc. injection Hc as <- <- <-.
        split; [reflexivity|]. cbn [snd].
        apply reads_response; [exact Lr| |exact Re].
        exact (proj1 (Forall_lookup _ _) Kr c _ L0).
      * rewrite !app_nil_r in Er. exists nw. split; [exact Er|exact F2].
Qed.

(** [told] is what was given, and a failure if the handler refused. *)
Lemma told_given n c l : forall v,
  returned cq n c l = Some v ->
  if v then told n c l = given cq n c l
  else told n c l ≡ₚ None :: given cq n c l.
Proof.
  revert n. induction l as [|e l IH]; intros n v; [discriminate|].
  destruct e as [|p b calls ret|c0 r0]; cbn [returned told given].
  - apply IH.
  - destruct (is_request cq b); [|apply IH].
    destruct (Nat.eqb n c) eqn:Ec.
    + intros [= <-]. assert (T : forall k, (c < k)%nat -> told k c l = given cq k c l).
      { clear. intros k Hk. revert k Hk.
        induction l as [|e l IH]; intros k Hk; [reflexivity|].
        destruct e as [|p b calls ret|c0 r0]; cbn [told given].
        - by apply IH.
        - destruct (is_request cq b); [|by apply IH].
          rewrite (proj2 (Nat.eqb_neq k c)) by lia. rewrite IH by lia. reflexivity.
        - by rewrite IH. }
      apply Nat.eqb_eq in Ec. rewrite T by lia. destruct ret.
      * by rewrite app_nil_r.
      * rewrite <- app_assoc. cbn [app]. symmetry. apply Permutation_middle.
    + cbn [app]. apply IH.
  - intros Hv. specialize (IH n v Hv). destruct v; [by rewrite IH|].
    rewrite IH. symmetry. apply Permutation_middle.
Qed.

Lemma returned_some l : forall s s', async_run cq cr s l = Next s' ->
  forall c, (length (as_requests s) <= c)%nat -> (c < length (as_requests s'))%nat ->
  exists v, returned cq (length (as_requests s)) c l = Some v.
Proof.
  induction l as [|e l IH]; intros s s' H c Hc Hc'.
  - injection H as <-. lia.
  - cbn [async_run] in H. destruct (async_step cq cr s e) as [s1| |] eqn:E; try discriminate.
    destruct e as [|p b calls ret|c0 r0]; cbn [async_step returned] in *.
    + injection E as <-. exact (IH _ _ H c Hc Hc').
    + unfold deserialize_request in E. unfold is_request.
      destruct (from_buffer (c_rpc_request cq) b) as [[[id q]|] s0| |]; try discriminate.
      * destruct (as_handler s); [|discriminate]. injection E as <-.
        destruct (Nat.eqb_spec (length (as_requests s)) c) as [_|N]; [eauto|].
        destruct (IH _ _ H c) as [v Hv]; [|exact Hc'|].
        { cbn [as_requests]. rewrite app_length. cbn. lia. }
        cbn [as_requests] in Hv. rewrite app_length, Nat.add_1_r in Hv. eauto.
      * injection E as <-. exact (IH _ _ H c Hc Hc').
    + destruct (as_requests s !! c0) as [[[p0 id0] q0]|]; [|discriminate].
      injection E as <-. exact (IH _ _ H c Hc Hc').
Qed.

Lemma async_answers l s c p id q : Forall (real_event cr) l ->
  async_run cq cr async_init l = Next s -> as_requests s !! c = Some (p, id, q) ->
  exists v answers, returned cq 0 c l = Some v /\
    answers ≡ₚ (if v : bool then [] else [None]) ++ given cq 0 c l /\
    Forall2 (sees p id) (replies c (as_sent s)) answers.
Proof.
  intros F H Hc.
  destruct (async_told l F async_init s ltac:(split; constructor) H) as (_ & _ & T).
  destruct (T c p id q Hc) as (nw & Er & F2). cbn in Er, F2.
  destruct (returned_some l _ _ H c) as [v Hv]; [cbn; lia|by eapply lookup_lt_Some|].
  cbn in Hv. exists v, (told 0 c l). split; [exact Hv|]. split.
  - pose proof (told_given 0 c l v Hv) as T2. destruct v; [by rewrite T2|exact T2].
  - rewrite Er. exact F2.
Qed.

Lemma async_once l s c p id q v : Forall (real_event cr) l ->
  async_run cq cr async_init l = Next s -> as_requests s !! c = Some (p, id, q) ->
  obeys_with cq c l v ->
  exists b, replies c (as_sent s) = [(p, b)] /\ client_reads cr b id v.
Proof.
  intros F H Hc O. destruct (async_answers l s c p id q F H Hc) as (w & a & Hw & Pa & F2).
  assert (a = [v]) as ->.
  { destruct O as [[Ho Hg]|(Ho & Hg & ->)]; rewrite Hw in Ho; injection Ho as ->;
      rewrite Hg in Pa; cbn in Pa.
    - apply Permutation_length_1_inv. by symmetry.
    - apply Permutation_length_1_inv. by symmetry. }
  inversion F2 as [|[p' b] ? l' ? S1 S2 E]; subst. inversion S2; subst.
  destruct S1 as [Ep Sr]. cbn in Ep, Sr. subst. eauto.
Qed.

Lemma registered_survives l : Forall (readable_event cq) l -> forall s,
  as_handler s = true -> async_run cq cr s l <> Ended.
Proof.
  induction 1 as [|e l Re _ IH]; intros s Hs; [discriminate|]. cbn [async_run].
  destruct (async_step cq cr s e) as [s1| |] eqn:E; [|exfalso|discriminate].
  - apply IH. destruct e as [|p b calls ret|c0 r0]; cbn [async_step] in E.
    + by injection E as <-.
    + unfold deserialize_request in E.
      destruct (from_buffer (c_rpc_request cq) b) as [[[id q]|] s0| |]; try discriminate.
      * destruct (as_handler s); [|discriminate]. by injection E as <-.
      * by injection E as <-.
    + destruct (as_requests s !! c0) as [[[p0 id0] q0]|]; [|discriminate]. by injection E as <-.
  - destruct e as [|p b calls ret|c0 r0]; cbn [async_step] in E; [discriminate| |].
    + unfold deserialize_request in E. cbn in Re.
      pose proof (from_buffer_fuel (c_rpc_request cq) b (lawful_request cq Lq)) as NF.
      destruct (from_buffer (c_rpc_request cq) b) as [[[id q]|] s0| |]; try discriminate; try done.
      rewrite Hs in E. discriminate.
    + by destruct (as_requests s !! c0) as [[[p0 id0] q0]|].
Qed.
Lemma async_survives l : starts_registered l -> Forall (readable_event cq) l ->
  async_run cq cr async_init l <> Ended.
Proof.
  intros [r ->] F. inversion F; subst. cbn [async_run async_step].
  by apply registered_survives.
Qed.
End async.
