(** Proofs about EVM transactions: whole runs. *)
From Coq Require Import NArith List Bool Lia.
From stdpp Require Import gmap.
From Verif Require Import Base EvmHostModel EvmHostSpec EvmHostProofs EvmHostSteps.
Import ListNotations.
Open Scope N_scope.

(** ** Balances the machine may send *)
Lemma get_balance_le w h a :
  h_retry h = false -> cache_ok w (h_acc h) ->
  fst (get_balance w h a) = 0 \/
  exists x, view_of (view w h) a = Some x /\ fst (get_balance w h a) = a_balance x.
Proof.
  intros R C. destruct (get_balance w h a) as [b h1] eqn:E. cbn.
  unfold get_balance in E. destruct (get_account w h a false) as [m h2] eqn:G.
  injection E as <- <-. destruct (h_retry h2) eqn:R2.
  - left. revert G. unfold get_account. destruct (is_precompile a).
    { intros [= _ <-]. congruence. }
    assert (F : forall m h2, (let '(ok, h1) := ask w h in
      if ok then (stored_acc (w_db w) a, put_acc h1 a (stored_acc (w_db w) a) false)
      else (None, h1)) = (m, h2) -> h_retry h2 = true -> m = None).
    { intros m' h'. destruct (ask w h) as [ok h3] eqn:Q. unfold ask in Q. injection Q as Q1 Q2.
      destruct ok; intros [= <- <-]; [|reflexivity].
      subst h3. cbn. rewrite Q1, R. discriminate. }
    destruct (h_acc h !! a) as [[v held]|].
    + destruct (held || negb false) eqn:Q.
      * intros [= _ <-]. congruence.
      * intros G. now rewrite (F _ _ G R2).
    + intros G. now rewrite (F _ _ G R2).
  - destruct (get_account_view _ _ _ _ _ _ G R2 C) as (_ & _ & Hm & _).
    destruct m as [x|]; [right; eauto|now left].
Qed.

Definition affordable (V : gmap N acct) (from value : N) : Prop :=
  value = 0 \/ exists x, view_of V from = Some x /\ value <= a_balance x.

Lemma honest_affordable w r f rest m :
  r_stack r = f :: rest -> honest w r (EEnter m) -> h_retry (r_host r) = false ->
  cache_ok w (h_acc (r_host r)) ->
  (is_create m = true \/ is_call m = true) ->
  m_sender m = f_self f /\ affordable (view w (r_host r)) (m_sender m) (m_value m).
Proof.
  unfold honest. intros -> H R C K.
  assert (H' : m_sender m = f_self f /\ (m_value m = 0 \/ m_value m <= fst (get_balance w (r_host r) (m_sender m)))).
  { unfold is_create, is_call in K. destruct (m_kind m); auto; destruct K; discriminate. }
  destruct H' as [Hs Hv]. split; [exact Hs|]. unfold affordable.
  destruct Hv as [Hv|Hv]; [now left|].
  destruct (get_balance_le w (r_host r) (m_sender m) R C) as [Z|(x & Hx & Hb)].
  - left. lia.
  - right. exists x. split; [exact Hx|lia].
Qed.

(** ** Sums over a run *)
Definition sane (w : world) (r : run) : Prop :=
  h_retry (r_host r) = false -> cache_ok w (h_acc (r_host r)) /\ view_ok (view w (r_host r)).

Lemma venter_sum w V m V' :
  venter w V m V' -> view_ok V ->
  (is_create m = true \/ is_call m = true -> affordable V (m_sender m) (m_value m)) ->
  tot V' <= tot V /\ view_ok V' /\
  (addresses_ok w -> (is_call m = true -> m_value m = 0 \/ is_precompile (m_recipient m) = false) ->
   tot V < two256 -> tot V' = tot V) /\
  (intact V -> intact V').
Proof.
  unfold venter. intros H Hok Haf.
  destruct (is_create m) eqn:K.
  - destruct (view_of V (m_sender m)) as [s|]; [|subst; split_and!; auto using N.le_refl].
    destruct (m_value m =? 0) eqn:Z; [subst; split_and!; auto using N.le_refl|].
    apply N.eqb_neq in Z.
    destruct (vtransfer_sum _ _ _ _ _ H Hok (Haf (or_introl eq_refl))) as (H1 & H2 & H3 & H4).
    split_and!; auto. intros [A1 A2] _ Ht. apply H3; auto.
    unfold new_of. destruct (m_kind m); auto.
  - destruct (is_call m) eqn:Kc; cbn [andb] in H; [|subst; split_and!; auto using N.le_refl].
    destruct (m_value m =? 0) eqn:Z; cbn [negb] in H; [subst; split_and!; auto using N.le_refl|].
    apply N.eqb_neq in Z.
    destruct (vtransfer_sum _ _ _ _ _ H Hok (Haf (or_intror eq_refl))) as (H1 & H2 & H3 & H4).
    split_and!; auto. intros _ Hk Ht. apply H3; auto. destruct (Hk eq_refl); [contradiction|assumption].
Qed.

(** Contracts being created are not at precompiles. *)
Definition stack_ok (st : list frame) : Prop :=
  Forall (fun f => forall a, f_new f = Some a -> is_precompile a = false) st.

Lemma step_sum w r e r' :
  w_ro w = false -> sane w r -> honest w r e -> step w r e = Stepped r' ->
  sane w r' /\
  (h_retry (r_host r') = false ->
     h_retry (r_host r) = false /\ h_init (r_host r') = h_init (r_host r) /\
     tot (view w (r_host r')) <= tot (view w (r_host r)) /\
     (addresses_ok w -> stack_ok (r_stack r) -> keeps_value w e ->
      tot (view w (r_host r)) < two256 ->
      tot (view w (r_host r')) = tot (view w (r_host r)) /\
      (intact (view w (r_host r)) -> intact (view w (r_host r'))))).
Proof.
  intros Hro S Ho E.
  assert (K : h_retry (r_host r') = false ->
    (cache_ok w (h_acc (r_host r')) /\ view_ok (view w (r_host r'))) /\
    h_retry (r_host r) = false /\ h_init (r_host r') = h_init (r_host r) /\
     tot (view w (r_host r')) <= tot (view w (r_host r)) /\
     (addresses_ok w -> stack_ok (r_stack r) -> keeps_value w e ->
      tot (view w (r_host r)) < two256 ->
      tot (view w (r_host r')) = tot (view w (r_host r)) /\
      (intact (view w (r_host r)) -> intact (view w (r_host r'))))).
  { intros R.
    destruct (step_view w r e r' Hro E R) as (f & rest & Hst & Hv & C' & R0 & Hi).
    { intros R0. apply (S R0). }
    destruct (S R0) as [C Hok].
    assert (Same : view w (r_host r') = view w (r_host r) ->
      (cache_ok w (h_acc (r_host r')) /\ view_ok (view w (r_host r'))) /\
      h_retry (r_host r) = false /\ h_init (r_host r') = h_init (r_host r) /\
      tot (view w (r_host r')) <= tot (view w (r_host r)) /\
      (addresses_ok w -> stack_ok (r_stack r) -> keeps_value w e ->
       tot (view w (r_host r)) < two256 ->
       tot (view w (r_host r')) = tot (view w (r_host r)) /\
       (intact (view w (r_host r)) -> intact (view w (r_host r'))))).
    { intros ->. split_and!; auto using N.le_refl. }
    destruct e as [a|a|a k|a k v|a|a|a|a b|l|m|s g out]; cbn [vevent] in Hv; try (apply Same, Hv).
    - destruct (vmake_facts _ _ _ Hv Hok) as (H1 & H2 & H3 & H4 & _). split_and!; auto.
    - destruct (vtransfer_sum _ _ _ _ _ Hv Hok (or_introl eq_refl)) as (H1 & H2 & _ & _).
      split_and!; auto. intros _ _ [].
    - destruct (venter_sum w _ m _ Hv Hok) as (H1 & H2 & H3 & H4).
      { intros K. exact (proj2 (honest_affordable w r f rest m Hst Ho R0 C K)). }
      split_and!; auto. intros A1 A2 A3 A4. split; [|exact H4]. apply H3; auto.
      intros K. cbn in A3. unfold is_call in K. destruct (m_kind m); discriminate || exact A3.
    - destruct (f_new f) as [a|] eqn:Ef; [|apply Same, Hv].
      destruct (vmake_facts _ _ _ Hv Hok) as (H1 & H2 & H3 & H4 & _). split_and!; auto.
      intros _ A2 _ _. split; [|exact H4]. apply H3. rewrite Hst in A2.
      exact (Forall_inv A2 a Ef). }
  split.
  - intros R. apply (K R).
  - intros R. apply (K R).
Qed.

Lemma step_stack w r e r' :
  addresses_ok w -> stack_ok (r_stack r) -> step w r e = Stepped r' -> stack_ok (r_stack r').
Proof.
  intros [A1 A2] S E. unfold step in E. destruct (r_stack r) as [|f rest] eqn:St; [discriminate|].
  assert (W : forall o, with_host r o = Stepped r' -> stack_ok (r_stack r')).
  { intros o. unfold with_host. destruct o; [|discriminate]. intros [= <-]. cbn. now rewrite St. }
  destruct e; try (apply (W _ E)).
  - destruct (enter w (r_host r) false m) as [[h1 en]|] eqn:En; [|discriminate].
    destruct en as [s g|f1]; injection E as <-; cbn; [exact S|].
    constructor; [|exact S]. intros a Ha.
    unfold enter, enter_create, enter_call in En.
    destruct (m_kind m) eqn:K;
    repeat match type of En with
    | context [get_account w ?H ?A ?B] => destruct (get_account w H A B) as [[?|] ?]
    | context [get_code_size w ?H ?A] => destruct (get_code_size w H A) as [? ?]
    | context [get_account_code w ?H ?A ?B] => destruct (get_account_code w H A B) as [? ?]
    | context [transfer w ?H ?A ?B ?C] => destruct (transfer w H A B C)
    | context [m_value m =? 0] => destruct (m_value m =? 0); cbn [negb andb] in En
    | context [if ?b then _ else _] => destruct b
    end; try discriminate; injection En as <- <-; cbn in Ha; try discriminate; injection Ha as <-; auto.
  - destruct rest; injection E as <-; cbn; [constructor|exact (Forall_inv_tail S)].
Qed.

Lemma steps_sum w es : forall r r',
  w_ro w = false -> sane w r -> honest_run w r es -> steps w r es = Stepped r' ->
  sane w r' /\
  (h_retry (r_host r') = false ->
     h_retry (r_host r) = false /\ h_init (r_host r') = h_init (r_host r) /\
     tot (view w (r_host r')) <= tot (view w (r_host r)) /\
     (addresses_ok w -> stack_ok (r_stack r) -> Forall (keeps_value w) es ->
      tot (view w (r_host r)) < two256 ->
      tot (view w (r_host r')) = tot (view w (r_host r)) /\
      (intact (view w (r_host r)) -> intact (view w (r_host r'))))).
Proof.
  induction es as [|e es IH]; intros r r' Hro S Ho E; cbn in E.
  - injection E as <-. split; [exact S|]. intros R. split_and!; auto using N.le_refl.
  - destruct Ho as [Ho1 Ho2]. destruct (step w r e) as [r1| |] eqn:E1; try discriminate.
    destruct (step_sum w r e r1 Hro S Ho1 E1) as [S1 F1].
    destruct (IH r1 r' Hro S1 Ho2 E) as [S2 F2].
    split; [exact S2|]. intros R. destruct (F2 R) as (R1 & I2 & T2 & X2).
    destruct (F1 R1) as (R0 & I1 & T1 & X1).
    split_and!; [exact R0|congruence|lia|].
    intros A1 A2 A3 A4.
    destruct (X1 A1 A2 (Forall_inv A3) A4) as [Q1 N1].
    destruct (X2 A1 (step_stack _ _ _ _ A1 A2 E1) (Forall_inv_tail A3)) as [Q2 N2]; [lia|].
    split; [lia|auto].
Qed.

(** ** Accounts no code runs as *)
Definition no_code (h : host) (a : N) : Prop :=
  forall c f, h_code h !! a = Some (Some c, f) -> c = [].

Lemma get_account_code_same w h b wr : h_code (snd (get_account w h b wr)) = h_code h.
Proof.
  unfold get_account. destruct (is_precompile b); [reflexivity|].
  assert (F : h_code (snd (let '(ok, h1) := ask w h in
      if ok then (stored_acc (w_db w) b, put_acc h1 b (stored_acc (w_db w) b) wr)
      else (None, h1))) = h_code h).
  { unfold ask. now destruct (w_env w (h_asked h)). }
  destruct (h_acc h !! b) as [[v held]|]; [destruct (held || negb wr)|]; try apply F. reflexivity.
Qed.

Lemma get_sto_code_same w h k wr : h_code (snd (get_account_storage w h k wr)) = h_code h.
Proof.
  destruct (get_account_storage w h k wr) as [m h1] eqn:E. cbn.
  apply (get_sto_frame _ _ _ _ _ _ E).
Qed.

Lemma transfer_code_same w h x y z h' : transfer w h x y z = Fine h' -> h_code h' = h_code h.
Proof.
  unfold transfer. pose proof (get_account_code_same w h x (negb (w_ro w))) as K1.
  destruct (get_account w h x (negb (w_ro w))) as [[acc|] h1]; [|discriminate]. cbn in K1.
  match goal with |- context [get_account w ?H ?A ?B] =>
    pose proof (get_account_code_same w H A B) as K2; destruct (get_account w H A B) as [q2 h6] end.
  intros [= <-]. cbn in K2 |- *. congruence.
Qed.

Lemma set_storage_code_same w h a k v h' : set_storage w h a k v = Fine h' -> h_code h' = h_code h.
Proof.
  unfold set_storage. pose proof (get_account_code_same w h a false) as K1.
  destruct (get_account w h a false) as [[acc|] h1]; cbn in K1.
  - match goal with |- context [get_account_storage w ?H ?A ?B] =>
      pose proof (get_sto_code_same w H A B) as K2; destruct (get_account_storage w H A B) as [q2 h6] end.
    intros [= <-]. cbn in K2 |- *. congruence.
  - assert (K2 : h_code (snd (if negb (w_ro w) then get_account w h1 a true else (None, h1))) = h_code h1).
    { destruct (negb (w_ro w)); [apply get_account_code_same|reflexivity]. }
    destruct (if negb (w_ro w) then get_account w h1 a true else (None, h1)) as [m2 h2]. cbn in K2.
    destruct (w_dbg w && _); [discriminate|].
    match goal with |- context [get_account_storage w ?H ?A ?B] =>
      pose proof (get_sto_code_same w H A B) as K3; destruct (get_account_storage w H A B) as [q3 h6] end.
    intros [= <-]. cbn in K3 |- *. congruence.
Qed.

Lemma get_code_no_code w h b wr a m h1 :
  code_len (w_db w) a = 0%nat -> no_code h a -> get_account_code w h b wr = (m, h1) ->
  no_code h1 a /\ (b = a -> forall c, m = Some c -> c = []).
Proof.
  intros L Hn. unfold get_account_code. destruct (is_precompile b).
  { intros [= <- <-]. split; [exact Hn|discriminate]. }
  assert (D : forall c, d_code (w_db w) !! a = Some c -> c = []).
  { intros c Hc. unfold code_len in L. rewrite Hc in L. now destruct c. }
  assert (F : (let '(ok, h1) := ask w h in
      if ok then (d_code (w_db w) !! b, put_code h1 b (d_code (w_db w) !! b) wr)
      else (None, h1)) = (m, h1) ->
      no_code h1 a /\ (b = a -> forall c, m = Some c -> c = [])).
  { unfold ask. destruct (w_env w (h_asked h)); intros [= <- <-].
    - split.
      + intros c f. cbn. destruct (decide (a = b)) as [->|Hab].
        * rewrite lookup_insert. intros [= Hc _]. auto.
        * rewrite lookup_insert_ne by congruence. apply Hn.
      + intros ->. exact D.
    - split; [exact Hn|discriminate]. }
  destruct (h_code h !! b) as [[v held]|] eqn:Eb; [destruct (held || negb wr)|]; try apply F.
  intros [= <- <-]. split; [exact Hn|]. intros -> c ->. exact (Hn _ _ Eb).
Qed.

(** The frames of a run act neither as [a] nor create it. *)
Definition apart (w : world) (a : N) (r : run) : Prop :=
  no_code (r_host r) a /\
  Forall (fun f => f_self f <> a /\ f_new f <> Some a) (r_stack r).

Lemma enter_apart w a h top m h1 en :
  plain_account w a -> no_code h a ->
  (is_create m = false -> is_call m = false -> m_recipient m <> a) ->
  enter w h top m = Fine (h1, en) ->
  no_code h1 a /\ (forall f, en = Running f -> f_self f <> a /\ f_new f <> Some a).
Proof.
  intros [(P & A1 & A2) L] Hn Hr. unfold enter.
  assert (Cr : is_create m = true -> enter_create w h top m = Fine (h1, en) ->
    no_code h1 a /\ (forall f, en = Running f -> f_self f <> a /\ f_new f <> Some a)).
  { intros _. unfold enter_create.
    pose proof (get_account_code_same w h (m_sender m) false) as K1.
    destruct (get_account w h (m_sender m) false) as [[s|] h2]; cbn in K1.
    - fold (new_of w m s).
      assert (Hna : new_of w m s <> a) by (unfold new_of; destruct (m_kind m); auto).
      destruct (if m_value m =? 0 then Fine h2 else transfer w h2 (m_sender m) (new_of w m s) (m_value m))
        as [h3|] eqn:T; [|discriminate].
      assert (K2 : h_code h3 = h_code h2).
      { destruct (m_value m =? 0); [now injection T as <-|exact (transfer_code_same _ _ _ _ _ _ T)]. }
      intros [= <- <-]. split.
      + intros c f. assert (Eh : h_code (if top then set_create h3 (Some (new_of w m s)) else h3) = h_code h)
          by (destruct top; cbn; congruence). rewrite Eh. apply Hn.
      + intros f [= <-]. cbn. split; congruence.
    - intros [= <- <-]. split; [|discriminate]. intros c f. rewrite K1. apply Hn. }
  assert (Ca : is_create m = false -> enter_call w h m = Fine (h1, en) ->
    no_code h1 a /\ (forall f, en = Running f -> f_self f <> a /\ f_new f <> Some a)).
  { intros Kc. unfold enter_call.
    set (native := _ && _).
    destruct (if native then transfer w h (m_sender m) (m_recipient m) (m_value m) else Fine h)
      as [h2|] eqn:T; [|discriminate].
    assert (K1 : h_code h2 = h_code h).
    { destruct native; [exact (transfer_code_same _ _ _ _ _ _ T)|now injection T as <-]. }
    assert (N2 : no_code h2 a) by (intros c f; rewrite K1; apply Hn).
    set (ca := match m_kind m with KDelegateCall | KCallCode => m_code m | _ => m_recipient m end).
    destruct (get_code_size w h2 ca) as [size h3] eqn:Z.
    assert (N3 : no_code h3 a /\ (ca = a -> size = 0%nat)).
    { unfold get_code_size in Z. destruct (is_precompile ca) eqn:Pc.
      - injection Z as <- <-. split; [exact N2|]. intros ->. congruence.
      - destruct (get_account_code w h2 ca false) as [c h4] eqn:G. injection Z as <- <-.
        destruct (get_code_no_code _ _ _ _ _ _ _ L N2 G) as [N3 Hc]. split; [exact N3|].
        intros Hca. destruct c as [c|]; [|reflexivity]. now rewrite (Hc Hca c eq_refl). }
    destruct N3 as [N3 Hz]. destruct (Nat.eqb size 0) eqn:Sz.
    - intros [= <- <-]. split; [|discriminate]. destruct native; exact N3.
    - destruct (get_account_code w h3 ca false) as [c h4] eqn:G.
      destruct (w_dbg w && _); [discriminate|]. intros [= <- <-].
      destruct (get_code_no_code _ _ _ _ _ _ _ L N3 G) as [N4 _]. split; [exact N4|].
      intros f [= <-]. cbn. split; [|discriminate]. intros Hra.
      unfold is_call, is_create in *.
      destruct (m_kind m) eqn:Kd; try discriminate Kc.
      + subst ca. rewrite (Hz Hra) in Sz. discriminate.
      + now apply Hr.
      + now apply Hr. }
  unfold is_create in Cr, Ca. destruct (m_kind m); auto.
Qed.

Lemma leave_apart w a h top f s out :
  code_len (w_db w) a = 0%nat -> no_code h a -> f_new f <> Some a ->
  no_code (leave w h top f s out) a.
Proof.
  intros L Hn Hf. unfold leave.
  assert (Tp : forall h1, no_code h1 a -> no_code (if top then set_success (set_out h1 out) (is_success s) else h1) a)
    by now destruct top.
  apply Tp. destruct (f_new f) as [x|]; [destruct (is_success s)|]; try exact Hn.
  pose proof (get_account_code_same w h x (negb (w_ro w))) as K1.
  destruct (get_account w h x (negb (w_ro w))) as [m h1]. cbn in K1.
  match goal with |- context [get_account_code w ?H ?A ?B] =>
    assert (N5 : no_code H a) by (intros c g; cbn; rewrite K1; apply Hn);
    destruct (get_account_code w H A B) as [q2 h6] eqn:G end.
  destruct (get_code_no_code _ _ _ _ a _ _ L N5 G) as [N6 _].
  intros c g. cbn. rewrite lookup_insert_ne by congruence. apply N6.
Qed.

Lemma step_apart w a r e r' :
  plain_account w a -> apart w a r -> honest w r e -> step w r e = Stepped r' -> apart w a r'.
Proof.
  intros Pl [Hn Hs] Ho E. pose proof Pl as [(P & A1 & A2) L].
  unfold step in E. unfold honest in Ho.
  destruct (r_stack r) as [|f rest] eqn:St; [discriminate|].
  assert (W : forall o, with_host r o = Stepped r' -> (forall h1, o = Fine h1 -> no_code h1 a) -> apart w a r').
  { intros o. unfold with_host. destruct o as [h1|]; [|discriminate]. intros [= <-] K.
    split; cbn; [now apply K|now rewrite St]. }
  destruct e as [x|x|x k|x k v|x|x|x|x b|l|m|s g out].
  - apply (W _ E). intros h1 [= <-] c q. rewrite get_account_code_same. apply Hn.
  - apply (W _ E). intros h1 [= <-] c q. unfold get_balance.
    pose proof (get_account_code_same w (r_host r) x false) as K.
    destruct (get_account w (r_host r) x false) as [m h2]. cbn in K |- *. rewrite K. apply Hn.
  - apply (W _ E). intros h1 [= <-] c q. rewrite get_sto_code_same. apply Hn.
  - apply (W _ E). intros h1 T c q. rewrite (set_storage_code_same _ _ _ _ _ _ T). apply Hn.
  - apply (W _ E). intros h1 [= <-]. unfold get_code_size. destruct (is_precompile x); [exact Hn|].
    destruct (get_account_code w (r_host r) x false) as [m h2] eqn:G. cbn.
    exact (proj1 (get_code_no_code _ _ _ _ _ _ _ L Hn G)).
  - apply (W _ E). intros h1 [= <-].
    destruct (get_account_code w (r_host r) x false) as [m h2] eqn:G. cbn.
    exact (proj1 (get_code_no_code _ _ _ _ _ _ _ L Hn G)).
  - apply (W _ E). intros h1 [= <-].
    destruct (get_account_code w (r_host r) x false) as [m h2] eqn:G. cbn.
    exact (proj1 (get_code_no_code _ _ _ _ _ _ _ L Hn G)).
  - apply (W _ E). intros h1 T c q. rewrite (transfer_code_same _ _ _ _ _ _ T). apply Hn.
  - apply (W _ E). intros h1 [= <-]. exact Hn.
  - destruct (enter w (r_host r) false m) as [[h1 en]|] eqn:En; [|discriminate].
    assert (Hrc : is_create m = false -> is_call m = false -> m_recipient m <> a).
    { destruct (Forall_inv Hs) as [Hself _]. unfold is_create, is_call.
      destruct (m_kind m); try discriminate; intros _ _; [congruence|destruct Ho; congruence]. }
    destruct (enter_apart w a _ _ _ _ _ Pl Hn Hrc En) as [N1 F1].
    destruct en as [s g|f1]; injection E as <-; split; cbn; auto.
  - destruct (Forall_inv Hs) as [_ Hnew].
    destruct rest as [|f2 rest].
    + assert (Q : r' = Run (leave w (r_host r) true f s out) [] (Some (s, g))) by congruence.
      rewrite Q. split; [apply leave_apart; assumption|constructor].
    + assert (Q : r' = Run (leave w (r_host r) false f s out) (f2 :: rest) None) by congruence.
      rewrite Q. split; [apply leave_apart; assumption|exact (Forall_inv_tail Hs)].
Qed.

(** A step leaves such an account no worse. *)
Lemma step_plain w a r e r' :
  w_ro w = false -> plain_account w a -> apart w a r -> sane w r -> honest w r e ->
  step w r e = Stepped r' -> h_retry (r_host r') = false ->
  same_nonce (acc_at (view w (r_host r)) a) (acc_at (view w (r_host r')) a) /\
  (tot (view w (r_host r)) < two256 ->
   no_worse (acc_at (view w (r_host r)) a) (acc_at (view w (r_host r')) a)).
Proof.
  intros Hro Pl [Hn Hs] S Ho E R. pose proof Pl as [(P & A1 & A2) L].
  destruct (step_view w r e r' Hro E R) as (f & rest & Hst & Hv & C' & R0 & Hi).
  { intros R0. apply (S R0). }
  destruct (S R0) as [C Hok]. rewrite Hst in Hs. destruct (Forall_inv Hs) as [Hself Hnew].
  assert (Same : acc_at (view w (r_host r')) a = acc_at (view w (r_host r)) a ->
    same_nonce (acc_at (view w (r_host r)) a) (acc_at (view w (r_host r')) a) /\
    (tot (view w (r_host r)) < two256 ->
     no_worse (acc_at (view w (r_host r)) a) (acc_at (view w (r_host r')) a))).
  { intros ->. split; [split; reflexivity|intros _; apply no_worse_refl]. }
  destruct e as [x|x|x k|x k v|x|x|x|x b|l|m|s g out]; cbn [vevent] in Hv;
    try (apply Same; now rewrite Hv).
  - apply Same. exact (proj2 (proj2 (proj2 (proj2 (vmake_facts _ _ _ Hv Hok)))) a P).
  - unfold honest in Ho. rewrite Hst in Ho.
    apply (vtransfer_other _ _ _ _ _ a Hv Hok P); [congruence|now left].
  - unfold venter in Hv. destruct (is_create m) eqn:K.
    + destruct (honest_affordable w r f rest m Hst Ho R0 C (or_introl K)) as [Hsd Haf].
      destruct (view_of _ (m_sender m)) as [s|]; [|apply Same; now rewrite Hv].
      destruct (m_value m =? 0); [apply Same; now rewrite Hv|].
      apply (vtransfer_other _ _ _ _ _ a Hv Hok P); [congruence|exact Haf].
    + destruct (is_call m && negb (m_value m =? 0)) eqn:Kc; [|apply Same; now rewrite Hv].
      apply andb_true_iff in Kc. destruct Kc as [Kc _].
      destruct (honest_affordable w r f rest m Hst Ho R0 C (or_intror Kc)) as [Hsd Haf].
      apply (vtransfer_other _ _ _ _ _ a Hv Hok P); [congruence|exact Haf].
  - destruct (f_new f) as [x|]; [|apply Same; now rewrite Hv].
    apply Same. exact (proj2 (proj2 (proj2 (proj2 (vmake_facts _ _ _ Hv Hok)))) a P).
Qed.

Lemma steps_plain w a es : forall r r',
  w_ro w = false -> plain_account w a -> apart w a r -> sane w r -> honest_run w r es ->
  steps w r es = Stepped r' -> h_retry (r_host r') = false ->
  apart w a r' /\
  same_nonce (acc_at (view w (r_host r)) a) (acc_at (view w (r_host r')) a) /\
  (tot (view w (r_host r)) < two256 ->
   no_worse (acc_at (view w (r_host r)) a) (acc_at (view w (r_host r')) a)).
Proof.
  induction es as [|e es IH]; intros r r' Hro Pl Ap S Ho E R; cbn in E.
  - injection E as <-. split_and!; [exact Ap|split; reflexivity|intros _; apply no_worse_refl].
  - destruct Ho as [Ho1 Ho2]. destruct (step w r e) as [r1| |] eqn:E1; try discriminate.
    destruct (step_sum w r e r1 Hro S Ho1 E1) as [S1 F1].
    destruct (steps_sum w es r1 r' Hro S1 Ho2 E) as [_ F2]. destruct (F2 R) as (R1 & _).
    destruct (F1 R1) as (R0 & _ & T1 & _).
    destruct (step_plain w a r e r1 Hro Pl Ap S Ho1 E1 R1) as [Q1 Q2].
    destruct (IH r1 r' Hro Pl (step_apart w a r e r1 Pl Ap Ho1 E1) S1 Ho2 E R) as (Ap' & Q3 & Q4).
    split_and!; [exact Ap'| |].
    + unfold same_nonce in *. destruct Q1, Q3. split; congruence.
    + intros Ht. apply (no_worse_trans _ _ _ (Q2 Ht)). apply Q4. lia.
Qed.

(** ** Gas *)
Definition gas_ok (G : N) (r : run) : Prop :=
  (forall s g, r_result r = Some (s, g) -> g <= G) /\
  (forall f, last (r_stack r) = Some f -> f_gas f = G).

Lemma step_gas w G r e r' : gas_ok G r -> honest w r e -> step w r e = Stepped r' -> gas_ok G r'.
Proof.
  intros [H1 H2] Ho E. unfold step in E. unfold honest in Ho.
  destruct (r_stack r) as [|f rest] eqn:St; [discriminate|].
  assert (W : forall o, with_host r o = Stepped r' -> gas_ok G r').
  { intros o. unfold with_host. destruct o; [|discriminate]. intros [= <-]. split; cbn; [exact H1|].
    rewrite St. exact H2. }
  destruct e; try (apply (W _ E)).
  - destruct (enter w (r_host r) false m) as [[h1 en]|]; [|discriminate].
    destruct en; injection E as <-; split; cbn [r_result r_stack]; try discriminate; auto.
  - destruct rest as [|f2 rest]; injection E as <-; split; cbn [r_result r_stack]; try discriminate; auto.
    intros s0 g [= _ <-]. rewrite <- (H2 f eq_refl). exact Ho.
Qed.

Lemma steps_gas w G es : forall r r',
  gas_ok G r -> honest_run w r es -> steps w r es = Stepped r' -> gas_ok G r'.
Proof.
  induction es as [|e es IH]; intros r r' H Ho E; cbn in E.
  - now injection E as <-.
  - destruct Ho as [Ho1 Ho2]. destruct (step w r e) as [r1| |] eqn:E1; try discriminate.
    apply (IH r1 r'); auto. exact (step_gas _ _ _ _ _ H Ho1 E1).
Qed.
