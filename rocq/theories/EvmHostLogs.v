(** Proofs about EVM transactions: the logs of the receipt, and what makes a transaction be
    retried. *)
From Coq Require Import NArith List Bool Lia.
From stdpp Require Import gmap.
From Verif Require Import Base EvmHostModel EvmHostSpec.
Import ListNotations.
Open Scope N_scope.

(** The logs stay, and the transaction is not to be retried unless a request is refused. *)
Definition calm (w : world) (h h' : host) : Prop :=
  h_logs h' = h_logs h /\ (h_retry h' = true -> h_retry h = true \/ exists i, w_env w i = false).

Lemma calm_refl w h : calm w h h.
Proof. split; auto. Qed.
Lemma calm_trans w a b c : calm w a b -> calm w b c -> calm w a c.
Proof.
  intros (E1 & R1) (E2 & R2). split; [congruence|].
  intros H. destruct (R2 H) as [H2|H2]; [exact (R1 H2)|now right].
Qed.
Lemma calm_put w h h' : h_logs h' = h_logs h -> h_retry h' = h_retry h -> calm w h h'.
Proof. intros E1 E2. split; [exact E1|]. rewrite E2. auto. Qed.

Lemma ask_calm w h ok h' : ask w h = (ok, h') -> calm w h h'.
Proof.
  unfold ask. intros [= <- <-]. split; [reflexivity|]. cbn. intros H.
  destruct (h_retry h); [now left|]. right. exists (h_asked h).
  now destruct (w_env w (h_asked h)).
Qed.

Lemma get_account_calm w h a wr m h' : get_account w h a wr = (m, h') -> calm w h h'.
Proof.
  unfold get_account. destruct (is_precompile a).
  { intros [= _ <-]. apply calm_refl. }
  destruct (ask w h) as [ok h1] eqn:A. apply ask_calm in A.
  assert (F : (if ok then (stored_acc (w_db w) a, put_acc h1 a (stored_acc (w_db w) a) wr)
               else (None, h1)) = (m, h') -> calm w h h').
  { destruct ok; intros [= _ <-]; [|exact A].
    eapply calm_trans; [exact A|]. now apply calm_put. }
  destruct (h_acc h !! a) as [[v held]|]; [|exact F].
  destruct (held || negb wr); [|exact F]. intros [= _ <-]. apply calm_refl.
Qed.

Lemma get_storage_calm w h k wr m h' : get_account_storage w h k wr = (m, h') -> calm w h h'.
Proof.
  unfold get_account_storage. destruct (is_precompile (fst k)).
  { intros [= _ <-]. apply calm_refl. }
  destruct (ask w h) as [ok h1] eqn:A. apply ask_calm in A.
  assert (F : (if ok then (d_sto (w_db w) !! k, put_sto h1 k (d_sto (w_db w) !! k) wr)
               else (None, h1)) = (m, h') -> calm w h h').
  { destruct ok; intros [= _ <-]; [|exact A].
    eapply calm_trans; [exact A|]. now apply calm_put. }
  destruct (h_sto h !! k) as [[v held]|]; [|exact F].
  destruct (held || negb wr); [|exact F]. intros [= _ <-]. apply calm_refl.
Qed.

Lemma get_code_calm w h a wr m h' : get_account_code w h a wr = (m, h') -> calm w h h'.
Proof.
  unfold get_account_code. destruct (is_precompile a).
  { intros [= _ <-]. apply calm_refl. }
  destruct (ask w h) as [ok h1] eqn:A. apply ask_calm in A.
  assert (F : (if ok then (d_code (w_db w) !! a, put_code h1 a (d_code (w_db w) !! a) wr)
               else (None, h1)) = (m, h') -> calm w h h').
  { destruct ok; intros [= _ <-]; [|exact A].
    eapply calm_trans; [exact A|]. now apply calm_put. }
  destruct (h_code h !! a) as [[v held]|]; [|exact F].
  destruct (held || negb wr); [|exact F]. intros [= _ <-]. apply calm_refl.
Qed.

Lemma get_size_calm w h a n h' : get_code_size w h a = (n, h') -> calm w h h'.
Proof.
  unfold get_code_size. destruct (is_precompile a).
  { intros [= _ <-]. apply calm_refl. }
  destruct (get_account_code w h a false) as [m h1] eqn:Q. intros [= _ <-].
  exact (get_code_calm _ _ _ _ _ _ Q).
Qed.

Lemma set_storage_calm w h a k v h' : set_storage w h a k v = Fine h' -> calm w h h'.
Proof.
  unfold set_storage. destruct (get_account w h a false) as [m h1] eqn:Q1.
  apply get_account_calm in Q1.
  destruct m as [acc|].
  - destruct (get_account_storage w h1 (a, k) (negb (w_ro w))) as [m2 h4] eqn:Q2.
    apply get_storage_calm in Q2. intros [= <-].
    eapply calm_trans; [exact Q1|]. eapply calm_trans; [exact Q2|]. now apply calm_put.
  - destruct (if negb (w_ro w) then get_account w h1 a true else (None, h1)) as [m2 h2] eqn:Q2.
    assert (C2 : calm w h1 h2).
    { destruct (negb (w_ro w)); [exact (get_account_calm _ _ _ _ _ _ Q2)|].
      injection Q2 as _ <-. apply calm_refl. }
    destruct (w_dbg w && match m2 with Some _ => true | None => false end); [discriminate|].
    destruct (get_account_storage w (put_acc h2 a (Some acct0) (negb (w_ro w))) (a, k) (negb (w_ro w)))
      as [m3 h4] eqn:Q3.
    apply get_storage_calm in Q3. intros [= <-].
    eapply calm_trans; [exact Q1|]. eapply calm_trans; [exact C2|].
    eapply calm_trans; [|eapply calm_trans; [exact Q3|]]; now apply calm_put.
Qed.

Lemma transfer_calm w h from to v h' : transfer w h from to v = Fine h' -> calm w h h'.
Proof.
  unfold transfer. destruct (get_account w h from (negb (w_ro w))) as [[acc|] h1] eqn:Q1; [|discriminate].
  apply get_account_calm in Q1.
  match goal with |- context [get_account w ?H to ?B] => destruct (get_account w H to B) as [m2 h3] eqn:Q2 end.
  apply get_account_calm in Q2. intros [= <-].
  eapply calm_trans; [exact Q1|].
  eapply calm_trans; [|eapply calm_trans; [exact Q2|]]; now apply calm_put.
Qed.

Lemma enter_calm w h top m h' en : enter w h top m = Fine (h', en) -> calm w h h'.
Proof.
  assert (EC : enter_create w h top m = Fine (h', en) -> calm w h h').
  { unfold enter_create. destruct (get_account w h (m_sender m) false) as [[snd|] h1] eqn:Q1;
      apply get_account_calm in Q1; [|intros [= <- _]; exact Q1].
    match goal with |- context [transfer w h1 (m_sender m) ?A _] => set (na := A) end.
    destruct (if m_value m =? 0 then Fine h1 else transfer w h1 (m_sender m) na (m_value m)) as [h2|] eqn:Q2;
      [|discriminate].
    assert (C2 : calm w h1 h2).
    { destruct (m_value m =? 0); [injection Q2 as <-; apply calm_refl|exact (transfer_calm _ _ _ _ _ _ Q2)]. }
    intros [= <- _]. eapply calm_trans; [exact Q1|]. eapply calm_trans; [exact C2|].
    destruct top; [now apply calm_put|apply calm_refl]. }
  assert (EL : enter_call w h m = Fine (h', en) -> calm w h h').
  { unfold enter_call.
    set (nt := negb (m_value m =? 0) && match m_kind m with KCall => true | _ => false end).
    destruct (if nt then transfer w h (m_sender m) (m_recipient m) (m_value m) else Fine h)
      as [h1|] eqn:Q1; [|discriminate].
    assert (C1 : calm w h h1).
    { destruct nt; [exact (transfer_calm _ _ _ _ _ _ Q1)|injection Q1 as <-; apply calm_refl]. }
    match goal with |- context [get_code_size w h1 ?A] => set (ca := A) end.
    destruct (get_code_size w h1 ca) as [size h2] eqn:Q2. apply get_size_calm in Q2.
    destruct (Nat.eqb size 0).
    - intros [= <- _]. eapply calm_trans; [exact C1|]. eapply calm_trans; [exact Q2|].
      destruct nt; [now apply calm_put|apply calm_refl].
    - destruct (get_account_code w h2 ca false) as [c h3] eqn:Q3. apply get_code_calm in Q3.
      match goal with |- context [if ?b then Dead else _] => destruct b; [discriminate|] end.
      intros [= <- _]. eapply calm_trans; [exact C1|]. eapply calm_trans; [exact Q2|exact Q3]. }
  unfold enter. destruct (m_kind m); auto.
Qed.

Lemma leave_calm w h top f s out : calm w h (leave w h top f s out).
Proof.
  assert (T : forall h1, calm w h1 (if top then set_success (set_out h1 out) (is_success s) else h1)).
  { intros h1. destruct top; [now apply calm_put|apply calm_refl]. }
  unfold leave. eapply calm_trans; [|apply T].
  destruct (f_new f) as [x|]; [|apply calm_refl]. destruct (is_success s); [|apply calm_refl].
  destruct (get_account w h x (negb (w_ro w))) as [m h1] eqn:Q1. apply get_account_calm in Q1.
  match goal with |- context [get_account_code w ?H ?A ?B] => destruct (get_account_code w H A B) as [m2 h3] eqn:Q2 end.
  apply get_code_calm in Q2.
  eapply calm_trans; [exact Q1|].
  eapply calm_trans; [|eapply calm_trans; [exact Q2|]]; now apply calm_put.
Qed.

Definition mild (w : world) (h h' : host) : Prop :=
  h_retry h' = true -> h_retry h = true \/ exists i, w_env w i = false.

Lemma step_calm w r e r' : step w r e = Stepped r' ->
  h_logs (r_host r') = h_logs (r_host r) ++ logged [e] /\ mild w (r_host r) (r_host r').
Proof.
  assert (G : forall h', calm w (r_host r) h' -> logged [e] = [] ->
    h_logs h' = h_logs (r_host r) ++ logged [e] /\ mild w (r_host r) h').
  { intros h' (E & R) L. rewrite L, app_nil_r. split; [exact E|exact R]. }
  unfold step. destruct (r_stack r) as [|f rest]; [discriminate|].
  destruct e; cbn [with_host].
  - destruct (get_account w (r_host r) a false) as [m h1] eqn:Q. intros [= <-].
    apply G; [exact (get_account_calm _ _ _ _ _ _ Q)|reflexivity].
  - unfold get_balance. destruct (get_account w (r_host r) a false) as [m h1] eqn:Q. intros [= <-].
    apply G; [exact (get_account_calm _ _ _ _ _ _ Q)|reflexivity].
  - destruct (get_account_storage w (r_host r) (a, k) false) as [m h1] eqn:Q. intros [= <-].
    apply G; [exact (get_storage_calm _ _ _ _ _ _ Q)|reflexivity].
  - destruct (set_storage w (r_host r) a k v) as [h1|] eqn:Q; [|discriminate]. intros [= <-].
    apply G; [exact (set_storage_calm _ _ _ _ _ _ Q)|reflexivity].
  - destruct (get_code_size w (r_host r) a) as [m h1] eqn:Q. intros [= <-].
    apply G; [exact (get_size_calm _ _ _ _ _ Q)|reflexivity].
  - destruct (get_account_code w (r_host r) a false) as [m h1] eqn:Q. intros [= <-].
    apply G; [exact (get_code_calm _ _ _ _ _ _ Q)|reflexivity].
  - destruct (get_account_code w (r_host r) a false) as [m h1] eqn:Q. intros [= <-].
    apply G; [exact (get_code_calm _ _ _ _ _ _ Q)|reflexivity].
  - unfold selfdestruct. destruct (transfer w (r_host r) a beneficiary 0) as [h1|] eqn:Q; [|discriminate].
    intros [= <-]. apply G; [exact (transfer_calm _ _ _ _ _ _ Q)|reflexivity].
  - intros [= <-]. split; [reflexivity|]. unfold mild. cbn. auto.
  - destruct (enter w (r_host r) false m) as [[h1 [s g|f1]]|] eqn:Q; [| |discriminate];
      intros [= <-]; (apply G; [exact (enter_calm _ _ _ _ _ _ Q)|reflexivity]).
  - destruct rest; intros H; injection H as <-.
    + apply G; [exact (leave_calm w (r_host r) true f s out)|reflexivity].
    + apply G; [exact (leave_calm w (r_host r) false f s out)|reflexivity].
Qed.

Lemma steps_calm w es : forall r r', steps w r es = Stepped r' ->
  h_logs (r_host r') = h_logs (r_host r) ++ logged es /\ mild w (r_host r) (r_host r').
Proof.
  induction es as [|e es IH]; cbn [steps]; intros r r'.
  - intros [= <-]. split; [now rewrite app_nil_r|]. unfold mild. auto.
  - destruct (step w r e) as [r1| |] eqn:S; [|discriminate|discriminate]. intros H.
    destruct (step_calm _ _ _ _ S) as (L1 & M1). destruct (IH _ _ H) as (L2 & M2).
    split.
    + rewrite L2, L1, <- app_assoc. f_equal. now destruct e.
    + intros R. destruct (M2 R) as [R1|R1]; [exact (M1 R1)|now right].
Qed.

Lemma start_calm w locks from t r : start w locks from t = Begun (Stepped r) ->
  h_logs (r_host r) = [] /\ (h_retry (r_host r) = true -> exists i, w_env w i = false).
Proof.
  assert (G : forall h m, h_logs h = [] -> h_retry h = false -> start_exec w h m = Stepped r ->
    h_logs (r_host r) = [] /\ (h_retry (r_host r) = true -> exists i, w_env w i = false)).
  { intros h m L R. unfold start_exec.
    destruct (enter w h true m) as [[h1 [s g|f]]|] eqn:Q; [| |discriminate];
      intros [= <-]; destruct (enter_calm _ _ _ _ _ _ Q) as (L1 & R1); cbn [r_host];
      (split; [congruence|]; intros X; destruct (R1 X) as [Y|Y]; [congruence|exact Y]). }
  unfold start. destruct locks as [[l1 l2] l3].
  destruct ((x_limit t <? min_gas t) && negb (w_ro w)); [discriminate|].
  destruct (w_ro w).
  { intros [= H]. refine (G _ _ _ _ H); reflexivity. }
  destruct (negb l1); [discriminate|].
  match goal with |- context [if negb ?b then Refused else _] => destruct (negb b); [discriminate|] end.
  match goal with |- context [if ?b then Refused else _] => destruct b; [discriminate|] end.
  destruct (negb (l2 && l3)); [discriminate|].
  intros [= H]. refine (G _ _ _ _ H); reflexivity.
Qed.

(** ** Results *)
Lemma finalize_logs w h o p g u h' : finalize w h o p g u = Fine h' -> h_logs h' = h_logs h.
Proof.
  unfold finalize. destruct (w_ro w); [now intros [= <-]|].
  destruct (get_account w h o true) as [[acc|] h1] eqn:Q; [|discriminate].
  intros [= <-]. exact (proj1 (get_account_calm _ _ _ _ _ _ Q)).
Qed.

Lemma receipt_logs w locks from t es u :
  execute w locks from t es = Some (Done u) -> rc_logs (u_receipt u) = logged es.
Proof.
  unfold execute. destruct (start w locks from t) as [| |[r| |]] eqn:S; try discriminate.
  destruct (steps w r es) as [r'| |] eqn:T; try discriminate.
  destruct (r_result r') as [[s g]|]; [|discriminate].
  destruct (start_calm _ _ _ _ _ S) as (L0 & _). destruct (steps_calm _ _ _ _ T) as (L1 & _).
  rewrite L0 in L1. cbn [app] in L1.
  intros [= H]. revert H. unfold conclude.
  assert (G : forall x, (if h_retry (r_host r') then Wounded
     else match finalize w (match s with Revert => revert (r_host r') | _ => r_host r' end)
                  from (x_price t) g x with Dead => ProcessEnds | Fine h2 => Done (state_updates h2) end)
     = Done u -> rc_logs (u_receipt u) = logged es).
  { intros x. destruct (h_retry (r_host r')); [discriminate|].
    destruct (finalize w _ from (x_price t) g x) as [h2|] eqn:F; [|discriminate].
    intros [= <-]. cbn. apply finalize_logs in F. rewrite F. now destruct s. }
  destruct s; [apply G|apply G|apply G|discriminate].
Qed.

Lemma wounded_refused w l1 l2 l3 from t es :
  execute w (l1, l2, l3) from t es = Some Wounded ->
  l1 && l2 && l3 = false \/ exists i, w_env w i = false.
Proof.
  unfold execute. destruct (start w (l1, l2, l3) from t) as [| |[r| |]] eqn:S; try discriminate.
  - intros _. left. revert S. unfold start.
    destruct ((x_limit t <? min_gas t) && negb (w_ro w)); [discriminate|].
    destruct (w_ro w); [discriminate|].
    destruct l1; [|reflexivity]. cbn [negb].
    match goal with |- context [if negb ?b then Refused else _] => destruct (negb b); [discriminate|] end.
    match goal with |- context [if ?b then Refused else _] => destruct b; [discriminate|] end.
    now destruct l2, l3.
  - destruct (steps w r es) as [r'| |] eqn:T; try discriminate.
    destruct (r_result r') as [[s g]|]; [|discriminate].
    destruct (start_calm _ _ _ _ _ S) as (_ & R0). destruct (steps_calm _ _ _ _ T) as (_ & R1).
    intros [= H]. right. revert H. unfold conclude.
    assert (G : forall x, (if h_retry (r_host r') then Wounded
       else match finalize w (match s with Revert => revert (r_host r') | _ => r_host r' end)
                    from (x_price t) g x with Dead => ProcessEnds | Fine h2 => Done (state_updates h2) end)
       = Wounded -> exists i, w_env w i = false).
    { intros x. destruct (h_retry (r_host r')) eqn:R.
      - intros _. destruct (R1 R) as [Y|Y]; [exact (R0 Y)|exact Y].
      - destruct (finalize w _ from (x_price t) g x); discriminate. }
    destruct s; [apply G|apply G|apply G|discriminate].
Qed.

Lemma precompiles a : is_precompile a = true <-> exists hi lo, hi < 256 /\ 1 <= lo < 256 /\ a = hi * 256 + lo.
Proof.
  unfold is_precompile. rewrite andb_true_iff, N.ltb_lt, negb_true_iff, N.eqb_neq. split.
  - intros (H1 & H2). exists (a / 256), (a mod 256).
    pose proof (N.div_mod' a 256). pose proof (N.mod_lt a 256 ltac:(discriminate)).
    apply N.neq_0_lt_0 in H2. split_and!; [apply N.div_lt_upper_bound; lia|lia|lia|lia].
  - intros (hi & lo & H1 & H2 & ->). split; [lia|].
    rewrite N.add_comm, N.mod_add by lia. rewrite N.mod_small; lia.
Qed.
