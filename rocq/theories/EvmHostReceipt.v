(** Proofs about EVM transactions: receipts, and transactions that do not end the agent. *)
From Coq Require Import NArith List Bool Lia.
From stdpp Require Import gmap.
From Verif Require Import Base EvmHostModel EvmHostSpec EvmHostProofs EvmHostSteps EvmHostRuns EvmHostFinal EvmHostMore.
Import ListNotations.
Open Scope N_scope.

(** ** Receipts *)
Lemma enter_create_field w h m h1 en :
  enter w h false m = Fine (h1, en) -> h_create h1 = h_create h.
Proof.
  unfold enter, enter_create, enter_call.
  destruct (m_kind m);
  repeat match goal with
  | |- context [get_account w ?H ?A ?B] =>
      let Q := fresh "Q" in destruct (get_account w H A B) as [[?|] ?] eqn:Q;
      apply get_account_frame in Q as (_ & _ & _ & ? & _)
  | |- context [get_code_size w ?H ?A] =>
      let Q := fresh "Q" in destruct (get_code_size w H A) as [? ?] eqn:Q; apply get_size_rest in Q as (_ & _ & ? & _)
  | |- context [get_account_code w ?H ?A ?B] =>
      let Q := fresh "Q" in destruct (get_account_code w H A B) as [? ?] eqn:Q; apply get_code_rest in Q as (_ & _ & ? & _)
  | |- context [transfer w ?H ?A ?B ?C] =>
      let Q := fresh "Q" in destruct (transfer w H A B C) eqn:Q; [apply transfer_rest in Q as (_ & _ & ? & _)|]
  | |- context [m_value m =? 0] => destruct (m_value m =? 0); cbn [negb andb]
  | |- context [if ?b then _ else _] => destruct b
  end; intros X; try discriminate; injection X as <- _; cbn in *; congruence.
Qed.

Lemma leave_create_field w h top f s out : h_create (leave w h top f s out) = h_create h.
Proof.
  unfold leave.
  assert (Tp : forall h1, h_create (if top then set_success (set_out h1 out) (is_success s) else h1) = h_create h1)
    by now destruct top.
  rewrite Tp. destruct (f_new f) as [x|]; [destruct (is_success s)|]; try reflexivity.
  destruct (get_account w h x (negb (w_ro w))) as [m h1] eqn:Q1.
  apply get_account_frame in Q1 as (_ & _ & _ & Q1 & _).
  match goal with |- context [get_account_code w ?H ?A ?B] =>
    destruct (get_account_code w H A B) as [q2 h6] eqn:G end.
  apply get_code_rest in G as (_ & _ & G & _). cbn in G |- *. congruence.
Qed.

Lemma step_create_field w r e r' :
  step w r e = Stepped r' -> h_create (r_host r') = h_create (r_host r).
Proof.
  intros E. unfold step in E. destruct (r_stack r) as [|f rest]; [discriminate|].
  assert (W : forall o, with_host r o = Stepped r' -> (forall h1, o = Fine h1 -> h_create h1 = h_create (r_host r)) ->
              h_create (r_host r') = h_create (r_host r)).
  { intros o. unfold with_host. destruct o as [h1|]; [|discriminate]. intros [= <-] K. now apply K. }
  destruct e as [x|x|x k|x k v|x|x|x|x b|l|m|s g out].
  - apply (W _ E). intros h1 [= <-]. destruct (get_account w (r_host r) x false) eqn:Q. now apply get_account_frame in Q as (_ & _ & _ & ? & _).
  - apply (W _ E). intros h1 [= <-]. unfold get_balance. destruct (get_account w (r_host r) x false) eqn:Q. now apply get_account_frame in Q as (_ & _ & _ & ? & _).
  - apply (W _ E). intros h1 [= <-]. destruct (get_account_storage w (r_host r) (x, k) false) eqn:Q. now apply get_sto_rest in Q as (_ & _ & ? & _).
  - apply (W _ E). intros h1 Q. now apply set_storage_rest in Q as (_ & ? & _).
  - apply (W _ E). intros h1 [= <-]. destruct (get_code_size w (r_host r) x) eqn:Q. now apply get_size_rest in Q as (_ & _ & ? & _).
  - apply (W _ E). intros h1 [= <-]. destruct (get_account_code w (r_host r) x false) eqn:Q. now apply get_code_rest in Q as (_ & _ & ? & _).
  - apply (W _ E). intros h1 [= <-]. destruct (get_account_code w (r_host r) x false) eqn:Q. now apply get_code_rest in Q as (_ & _ & ? & _).
  - apply (W _ E). intros h1 Q. unfold selfdestruct in Q. now apply transfer_rest in Q as (_ & _ & ? & _).
  - apply (W _ E). intros h1 [= <-]. reflexivity.
  - destruct (enter w (r_host r) false m) as [[h1 en]|] eqn:En; [|discriminate].
    apply enter_create_field in En. destruct en; injection E as <-; exact En.
  - destruct rest.
    + assert (Q : r' = Run (leave w (r_host r) true f s out) [] (Some (s, g))) by congruence.
      rewrite Q. apply leave_create_field.
    + assert (Q : r' = Run (leave w (r_host r) false f s out) (f0 :: rest) None) by congruence.
      rewrite Q. apply leave_create_field.
Qed.

Lemma steps_create_field w es : forall r r',
  steps w r es = Stepped r' -> h_create (r_host r') = h_create (r_host r).
Proof.
  induction es as [|e es IH]; intros r r' E; cbn in E.
  - now injection E as <-.
  - destruct (step w r e) as [r1| |] eqn:E1; try discriminate.
    rewrite (IH _ _ E). exact (step_create_field _ _ _ _ E1).
Qed.

(** What the updates take from the final host. *)
Lemma conclude_receipt w from t h s g u :
  conclude w from t h s g = Done u ->
  rc_success (u_receipt u) = h_success h /\ rc_create (u_receipt u) = h_create h /\
  rc_out (u_receipt u) = h_out h /\ rc_logs (u_receipt u) = h_logs h /\ s <> Internal /\
  u_code u = omap plain_update (h_code h).
Proof.
  unfold conclude. intros E.
  assert (Fz : forall h0 used, h_success h0 = h_success h -> h_create h0 = h_create h -> h_out h0 = h_out h ->
    h_logs h0 = h_logs h -> h_code h0 = h_code h ->
    match finalize w h0 from (x_price t) g used with Dead => ProcessEnds | Fine h2 => Done (state_updates h2) end = Done u ->
    rc_success (u_receipt u) = h_success h /\ rc_create (u_receipt u) = h_create h /\
    rc_out (u_receipt u) = h_out h /\ rc_logs (u_receipt u) = h_logs h /\
    u_code u = omap plain_update (h_code h)).
  { intros h0 used Q1 Q2 Q3 Q4 Q5. unfold finalize. destruct (w_ro w).
    - intros [= <-]. cbn. split_and!; congruence.
    - destruct (get_account w h0 from true) as [m h3] eqn:G.
      assert (Go : h_out h3 = h_out h0).
      { revert G. unfold get_account. destruct (is_precompile from); [now intros [= _ <-]|].
        assert (F : forall m h1, (let '(ok, h1) := ask w h0 in
          if ok then (stored_acc (w_db w) from, put_acc h1 from (stored_acc (w_db w) from) true)
          else (None, h1)) = (m, h1) -> h_out h1 = h_out h0).
        { intros m' h'. unfold ask. destruct (w_env w (h_asked h0)); intros [= _ <-]; reflexivity. }
        destruct (h_acc h0 !! from) as [[v held]|]; [destruct (held || negb true)|]; try apply F.
        now intros [= _ <-]. }
      apply get_account_frame in G as (G1 & _ & _ & G2 & G3 & G4).
      destruct m; [|discriminate]. intros [= <-]. cbn. split_and!; congruence. }
  destruct s; try discriminate; destruct (h_retry h); try discriminate;
    apply Fz in E; try reflexivity; destruct E as (? & ? & ? & ? & ?);
    split_and!; auto; discriminate.
Qed.

(** The outermost call's end writes the receipt. *)
Lemma final_step w r e r' s g :
  busy r -> step w r e = Stepped r' -> r_result r' = Some (s, g) ->
  exists f out, e = ELeave s g out /\ r_stack r = [f] /\ r_host r' = leave w (r_host r) true f s out.
Proof.
  intros B E Rs. unfold step in E. destruct (r_stack r) as [|f rest] eqn:St; [discriminate|].
  assert (B0 : r_result r = None) by (apply B; rewrite St; discriminate).
  assert (W : forall o, with_host r o = Stepped r' -> False).
  { intros o. unfold with_host. destruct o; [|discriminate]. intros [= <-]. cbn in Rs. congruence. }
  destruct e; try (destruct (W _ E)).
  - destruct (enter w (r_host r) false m) as [[h1 en]|]; [|discriminate].
    destruct en; injection E as <-; discriminate.
  - destruct rest as [|f0 rest].
    + assert (Q : r' = Run (leave w (r_host r) true f s0 out) [] (Some (s0, gas_left))) by congruence.
      rewrite Q in Rs |- *. injection Rs as <- <-. eauto.
    + assert (Q : r' = Run (leave w (r_host r) false f s0 out) (f0 :: rest) None) by congruence.
      rewrite Q in Rs. discriminate.
Qed.

(** The bottom of the stack. *)
Lemma step_bottom w r e r' f0 :
  step w r e = Stepped r' -> last (r_stack r) = Some f0 -> r_stack r' = [] \/ last (r_stack r') = Some f0.
Proof.
  intros E L. unfold step in E. destruct (r_stack r) as [|f rest] eqn:St; [discriminate|].
  assert (W : forall o, with_host r o = Stepped r' -> r_stack r' = [] \/ last (r_stack r') = Some f0).
  { intros o. unfold with_host. destruct o; [|discriminate]. intros [= <-]. right. cbn. now rewrite St. }
  destruct e; try (apply (W _ E)).
  - destruct (enter w (r_host r) false m) as [[h1 en]|]; [|discriminate].
    destruct en; injection E as <-; right; exact L.
  - destruct rest as [|f1 rest].
    + left. now injection E as <-.
    + right. injection E as <-. exact L.
Qed.

Lemma run_end w es : forall r r' s g f0,
  busy r -> last (r_stack r) = Some f0 -> steps w r es = Stepped r' -> r_result r' = Some (s, g) ->
  exists h out, r_host r' = leave w h true f0 s out.
Proof.
  induction es as [|e es IH]; intros r r' s g f0 B L E Rs; cbn in E.
  - injection E as <-. rewrite B in Rs; [discriminate|]. intros Q. rewrite Q in L. discriminate.
  - destruct (step w r e) as [r1| |] eqn:E1; try discriminate.
    destruct (step_bottom _ _ _ _ _ E1 L) as [St|L1].
    + destruct (steps_end _ _ _ _ E St) as [_ ->].
      destruct (final_step _ _ _ _ _ _ B E1 Rs) as (f & out & _ & Q & Hh).
      rewrite Q in L. injection L as <-. eauto.
    + exact (IH r1 r' s g f0 (step_busy _ _ _ _ B E1) L1 E Rs).
Qed.

Lemma leave_top w h f s out :
  h_success (leave w h true f s out) = is_success s /\ h_out (leave w h true f s out) = out /\
  (w_ro w = false -> forall a, f_new f = Some a -> s = Success ->
     omap plain_update (h_code (leave w h true f s out)) !! a = Some out).
Proof.
  unfold leave. split_and!; [reflexivity|reflexivity|].
  intros -> a -> ->. cbn [negb is_success].
  destruct (get_account w h a true) as [m h1].
  match goal with |- context [get_account_code w ?H ?A ?B] =>
    destruct (get_account_code w H A B) as [q2 h6] end.
  rewrite lookup_omap. cbn. now rewrite lookup_insert.
Qed.

Theorem receipt_success w locks from t es u s :
  execute w locks from t es = Some (Done u) -> call_status w locks from t es = Some s -> es <> [] ->
  rc_success (u_receipt u) = is_success s.
Proof.
  intros E Cs Hes. unfold execute in E. unfold call_status in Cs.
  destruct (start w locks from t) as [| |[r| |]] eqn:St; try discriminate.
  destruct (steps w r es) as [r'| |] eqn:Ss; try discriminate.
  destruct (r_result r') as [[s' g]|] eqn:Rs; [|discriminate]. cbn in Cs. injection Cs as ->.
  injection E as E. destruct (conclude_receipt _ _ _ _ _ _ _ E) as (-> & _).
  assert (Q : exists h, start_exec w h (make_message w from t) = Stepped r).
  { unfold start in St. destruct locks as [[l1 l2] l3].
    repeat match type of St with (if ?b then _ else _) = _ => destruct b end; try discriminate;
      injection St as St; eauto. }
  destruct Q as [h Q]. unfold start_exec in Q.
  destruct (enter w h true (make_message w from t)) as [[h1 [s0 g0|f]]|]; [| |discriminate]; injection Q as <-.
  - destruct (steps_end _ _ _ _ Ss eq_refl) as [? _]. contradiction.
  - destruct (run_end w es (Run h1 [f] None) r' s g f) as (h2 & out & Hh); auto.
    { intros _. reflexivity. }
    rewrite Hh. apply leave_top.
Qed.

Theorem receipt_transfer w locks from t u s :
  execute w locks from t [] = Some (Done u) -> call_status w locks from t [] = Some s ->
  s = Success -> rc_success (u_receipt u) = negb (x_value t =? 0).
Proof.
  intros E Cs Hs. unfold execute in E. unfold call_status in Cs.
  destruct (start w locks from t) as [| |[r| |]] eqn:St; try discriminate. cbn [steps] in E, Cs.
  destruct (r_result r) as [[s' g]|] eqn:Rs; [|discriminate]. cbn in Cs. injection Cs as ->.
  injection E as E. destruct (conclude_receipt _ _ _ _ _ _ _ E) as (-> & _).
  assert (Q : exists h, h_success h = false /\ start_exec w h (make_message w from t) = Stepped r).
  { unfold start in St. destruct locks as [[l1 l2] l3].
    repeat match type of St with (if ?b then _ else _) = _ => destruct b end; try discriminate;
      injection St as St; eexists; (split; [|exact St]); reflexivity. }
  destruct Q as (h & Hf & Q). unfold start_exec in Q.
  destruct (enter w h true (make_message w from t)) as [[h1 [s0 g0|f]]|] eqn:En; [| |discriminate];
    injection Q as <-; [|discriminate]. injection Rs as -> ->. cbn [r_host].
  revert En. unfold enter, make_message. cbn [m_kind]. destruct (x_to t) as [a|].
  - unfold enter_call. cbn [m_kind m_value m_sender m_recipient]. rewrite andb_true_r.
    destruct (x_value t =? 0) eqn:V; cbn [negb].
    + destruct (get_code_size w h a) as [n h2] eqn:Z. apply get_size_rest in Z as (_ & _ & _ & Z & _).
      destruct (Nat.eqb n 0).
      * intros [= <- _ _]. congruence.
      * destruct (get_account_code w h2 a false). destruct (w_dbg w && _); discriminate.
    + destruct (transfer w h from a (x_value t)) as [h2|]; [|discriminate].
      destruct (get_code_size w h2 a) as [n h3]. destruct (Nat.eqb n 0).
      * now intros [= <- _ _].
      * destruct (get_account_code w h3 a false). destruct (w_dbg w && _); discriminate.
  - unfold enter_create. cbn [m_kind m_value m_sender].
    destruct (get_account w h from false) as [[x|] h2]; [|intros [= _ Q _]; congruence].
    match goal with |- match ?T with _ => _ end = _ -> _ => destruct T end; discriminate.
Qed.

Theorem receipt_creation w locks from t es u s :
  w_ro w = false -> is_precompile from = false ->
  execute w locks from t es = Some (Done u) -> call_status w locks from t es = Some s ->
  rc_create (u_receipt u) = match x_to t with None => Some (w_caddr w from (x_nonce t)) | Some _ => None end /\
  (x_to t = None -> s = Success ->
     d_code (apply_updates (w_db w) u) !! w_caddr w from (x_nonce t) = Some (rc_out (u_receipt u))).
Proof.
  intros Hro Pf E Cs. unfold execute in E. unfold call_status in Cs.
  destruct (start w locks from t) as [| |[r| |]] eqn:St; try discriminate.
  destruct (steps w r es) as [r'| |] eqn:Ss; try discriminate.
  destruct (r_result r') as [[s' g]|] eqn:Rs; [|discriminate]. cbn in Cs. injection Cs as ->.
  injection E as E. destruct (conclude_receipt _ _ _ _ _ _ _ E) as (_ & -> & Ho & _ & _ & Hc).
  destruct (start_real _ _ _ _ _ Hro St) as (_ & Hn & _ & Es). symmetry in Es. unfold start_exec in Es.
  destruct (first_host_acc w from t Hro) as (Ea & _).
  rewrite (steps_create_field _ _ _ _ Ss).
  destruct (x_to t) as [a|] eqn:To.
  - split; [|discriminate].
    destruct (enter w (first_host w from t) true (make_message w from t)) as [[h1 en]|] eqn:En; [|discriminate].
    assert (En' : enter w (first_host w from t) false (make_message w from t) = Fine (h1, en)).
    { revert En. unfold enter, make_message. rewrite To. auto. }
    apply enter_create_field in En'. destruct en; injection Es as <-; exact En'.
  - unfold enter in Es. assert (K : m_kind (make_message w from t) = KCreate) by (unfold make_message; now rewrite To).
    rewrite K in Es. unfold enter_create in Es. rewrite K in Es.
    assert (G : get_account w (first_host w from t) (m_sender (make_message w from t)) false =
                (Some (first_acc w from t), first_host w from t)).
    { unfold get_account. cbn [m_sender make_message]. rewrite Pf, Ea, lookup_singleton. reflexivity. }
    rewrite G in Es. cbn [m_sender make_message a_nonce first_acc] in Es. rewrite Hn in Es.
    match type of Es with match (match ?T with _ => _ end) with _ => _ end = _ => destruct T as [h2|] end;
      [|discriminate].
    injection Es as <-. cbn [r_host h_create set_create]. split; [reflexivity|].
    intros _ ->.
    match type of Ss with steps w ?R es = _ =>
      assert (B : busy R) by (intros _; reflexivity);
      destruct (run_end w es R r' Success g _ B eq_refl Ss Rs) as (h3 & out & Hh) end.
    rewrite Hh in Hc, Ho.
    match type of Hh with _ = leave w h3 true ?F _ _ => destruct (leave_top w h3 F Success out) as (_ & L2 & L3) end.
    rewrite L2 in Ho. specialize (L3 Hro _ eq_refl eq_refl).
    unfold apply_updates. cbn [d_code]. rewrite lookup_union, Hc.
    cbn [f_new] in L3.
    rewrite L3, Ho. match goal with |- union_with _ _ ?o = _ => now destruct o end.
Qed.

(** ** Transactions that do not end the agent *)
(** The sender's account stays held for writing. *)
Definition holds (h : host) (a : N) : Prop := exists x, h_acc h !! a = Some (Some x, true).

Lemma get_account_holds w h b wr m h1 a :
  get_account w h b wr = (m, h1) -> holds h a -> holds h1 a.
Proof.
  unfold get_account. destruct (is_precompile b); [now intros [= _ <-]|].
  intros E [x Hx]. destruct (decide (a = b)) as [->|Hn].
  - rewrite Hx in E. cbn in E. injection E as _ <-. now exists x.
  - assert (F : forall m h1, (let '(ok, h1) := ask w h in
      if ok then (stored_acc (w_db w) b, put_acc h1 b (stored_acc (w_db w) b) wr)
      else (None, h1)) = (m, h1) -> holds h1 a).
    { intros m' h'. unfold ask. destruct (w_env w (h_asked h)); intros [= _ <-]; exists x; cbn; [|exact Hx].
      now rewrite lookup_insert_ne by congruence. }
    destruct (h_acc h !! b) as [[v held]|]; [destruct (held || negb wr)|]; try (eapply F; exact E).
    injection E as _ <-. now exists x.
Qed.
Lemma put_holds h b x a : holds h a -> holds (put_acc h b (Some x) true) a.
Proof.
  intros [y Hy]. destruct (decide (a = b)) as [->|Hn].
  - exists x. cbn. now rewrite lookup_insert.
  - exists y. cbn. now rewrite lookup_insert_ne by congruence.
Qed.
Lemma same_acc_holds h h1 a : h_acc h1 = h_acc h -> holds h a -> holds h1 a.
Proof. unfold holds. now intros ->. Qed.
Lemma transfer_holds w h x y z h' a :
  w_ro w = false -> transfer w h x y z = Fine h' -> holds h a -> holds h' a.
Proof.
  intros Hro. unfold transfer. rewrite Hro. cbn [negb].
  destruct (get_account w h x true) as [[acc|] h1] eqn:E1; [|discriminate].
  match goal with |- context [get_account w ?H ?A ?B] =>
    destruct (get_account w H A B) as [q2 h6] eqn:E2 end.
  intros [= <-] Hh. apply put_holds. apply (get_account_holds _ _ _ _ _ _ _ E2). apply put_holds.
  exact (get_account_holds _ _ _ _ _ _ _ E1 Hh).
Qed.
Lemma set_storage_holds w h b k v h' a :
  w_ro w = false -> set_storage w h b k v = Fine h' -> holds h a -> holds h' a.
Proof.
  intros Hro. unfold set_storage. rewrite Hro. cbn [negb].
  assert (Last : forall h5 acc, holds h5 a ->
    holds (put_acc h5 b (Some acc) (match h_acc h5 !! b with Some (_, f) => f | None => false end)) a).
  { intros h5 acc [y Hy]. destruct (decide (a = b)) as [->|Hn].
    - rewrite Hy. exists acc. cbn. now rewrite lookup_insert.
    - exists y. cbn. now rewrite lookup_insert_ne by congruence. }
  destruct (get_account w h b false) as [[acc|] h1] eqn:E1.
  - destruct (get_account_storage w h1 (b, k) true) as [q2 h6] eqn:E2.
    intros [= <-] Hh. apply (Last (put_sto h6 (b, k) (Some v) true)).
    apply (same_acc_holds h1); [exact (proj1 (get_sto_rest _ _ _ _ _ _ E2))|].
    exact (get_account_holds _ _ _ _ _ _ _ E1 Hh).
  - destruct (get_account w h1 b true) as [m2 h2] eqn:E2. destruct (w_dbg w && _); [discriminate|].
    match goal with |- context [get_account_storage w ?H ?A ?B] =>
      destruct (get_account_storage w H A B) as [q3 h6] eqn:E4 end.
    intros [= <-] Hh. apply (Last (put_sto h6 (b, k) (Some v) true)).
    apply (same_acc_holds (put_acc h2 b (Some acct0) true)); [exact (proj1 (get_sto_rest _ _ _ _ _ _ E4))|].
    apply put_holds. apply (get_account_holds _ _ _ _ _ _ _ E2).
    exact (get_account_holds _ _ _ _ _ _ _ E1 Hh).
Qed.
Lemma enter_holds w h top m h1 en a :
  w_ro w = false -> enter w h top m = Fine (h1, en) -> holds h a -> holds h1 a.
Proof.
  intros Hro En Hh. revert En. unfold enter, enter_create, enter_call.
  destruct (m_kind m);
  repeat match goal with
  | H : holds ?h a |- context [get_account w ?h ?A ?B] =>
      let Q := fresh "Q" in destruct (get_account w h A B) as [[?|] ?] eqn:Q;
      pose proof (get_account_holds _ _ _ _ _ _ a Q H)
  | H : holds ?h a |- context [get_code_size w ?h ?A] =>
      let Q := fresh "Q" in destruct (get_code_size w h A) as [? ?] eqn:Q; apply get_size_rest in Q as (Q & _);
      pose proof (same_acc_holds _ _ a Q H)
  | H : holds ?h a |- context [get_account_code w ?h ?A ?B] =>
      let Q := fresh "Q" in destruct (get_account_code w h A B) as [? ?] eqn:Q; apply get_code_rest in Q as (Q & _);
      pose proof (same_acc_holds _ _ a Q H)
  | H : holds ?h a |- context [transfer w ?h ?A ?B ?C] =>
      let Q := fresh "Q" in destruct (transfer w h A B C) eqn:Q; [pose proof (transfer_holds _ _ _ _ _ _ a Hro Q H)|]
  | |- context [m_value m =? 0] => destruct (m_value m =? 0); cbn [negb andb]
  | |- context [if ?b then _ else _] => destruct b
  end; intros X; try discriminate; injection X as <- _; assumption.
Qed.
Lemma leave_holds w h top f s out a : w_ro w = false -> holds h a -> holds (leave w h top f s out) a.
Proof.
  intros Hro Hh. unfold leave. rewrite Hro. cbn [negb].
  assert (Tp : forall h1, holds h1 a -> holds (if top then set_success (set_out h1 out) (is_success s) else h1) a)
    by now destruct top.
  apply Tp. destruct (f_new f) as [x|]; [destruct (is_success s)|]; try exact Hh.
  destruct (get_account w h x true) as [m h1] eqn:Q1.
  match goal with |- context [get_account_code w ?H ?A ?B] =>
    destruct (get_account_code w H A B) as [q2 h6] eqn:G end.
  apply (same_acc_holds h6); [reflexivity|].
  apply (same_acc_holds _ _ _ (proj1 (get_code_rest _ _ _ _ _ _ G))).
  apply put_holds. exact (get_account_holds _ _ _ _ _ _ _ Q1 Hh).
Qed.
Lemma step_holds w r e r' a :
  w_ro w = false -> step w r e = Stepped r' -> holds (r_host r) a -> holds (r_host r') a.
Proof.
  intros Hro E Hh. unfold step in E. destruct (r_stack r) as [|f rest]; [discriminate|].
  assert (W : forall o, with_host r o = Stepped r' -> (forall h1, o = Fine h1 -> holds h1 a) -> holds (r_host r') a).
  { intros o. unfold with_host. destruct o as [h1|]; [|discriminate]. intros [= <-] K. now apply K. }
  destruct e as [x|x|x k|x k v|x|x|x|x b|l|m|s g out].
  - apply (W _ E). intros h1 [= <-]. destruct (get_account w (r_host r) x false) eqn:Q. exact (get_account_holds _ _ _ _ _ _ _ Q Hh).
  - apply (W _ E). intros h1 [= <-]. unfold get_balance. destruct (get_account w (r_host r) x false) eqn:Q. exact (get_account_holds _ _ _ _ _ _ _ Q Hh).
  - apply (W _ E). intros h1 [= <-]. destruct (get_account_storage w (r_host r) (x, k) false) eqn:Q.
    exact (same_acc_holds _ _ _ (proj1 (get_sto_rest _ _ _ _ _ _ Q)) Hh).
  - apply (W _ E). intros h1 Q. exact (set_storage_holds _ _ _ _ _ _ _ Hro Q Hh).
  - apply (W _ E). intros h1 [= <-]. destruct (get_code_size w (r_host r) x) eqn:Q.
    exact (same_acc_holds _ _ _ (proj1 (get_size_rest _ _ _ _ _ Q)) Hh).
  - apply (W _ E). intros h1 [= <-]. destruct (get_account_code w (r_host r) x false) eqn:Q.
    exact (same_acc_holds _ _ _ (proj1 (get_code_rest _ _ _ _ _ _ Q)) Hh).
  - apply (W _ E). intros h1 [= <-]. destruct (get_account_code w (r_host r) x false) eqn:Q.
    exact (same_acc_holds _ _ _ (proj1 (get_code_rest _ _ _ _ _ _ Q)) Hh).
  - apply (W _ E). intros h1 Q. exact (transfer_holds _ _ _ _ _ _ _ Hro Q Hh).
  - apply (W _ E). intros h1 [= <-]. exact Hh.
  - destruct (enter w (r_host r) false m) as [[h1 en]|] eqn:En; [|discriminate].
    apply (enter_holds _ _ _ _ _ _ a Hro En) in Hh. destruct en; injection E as <-; exact Hh.
  - destruct rest as [|f0 rest].
    + assert (Q : r' = Run (leave w (r_host r) true f s out) [] (Some (s, g))) by congruence.
      rewrite Q. now apply leave_holds.
    + assert (Q : r' = Run (leave w (r_host r) false f s out) (f0 :: rest) None) by congruence.
      rewrite Q. now apply leave_holds.
Qed.

(** When every lock request succeeds nothing is retried. *)
Section Granted.
Variable w : world.
Hypothesis env : forall i, w_env w i = true.
Hypothesis ro : w_ro w = false.
Hypothesis rel : w_dbg w = false.

Lemma ga_retry h a wr m h1 : get_account w h a wr = (m, h1) -> h_retry h = false -> h_retry h1 = false.
Proof.
  unfold get_account. destruct (is_precompile a); [now intros [= _ <-]|].
  assert (F : forall m h1, (let '(ok, h1) := ask w h in
      if ok then (stored_acc (w_db w) a, put_acc h1 a (stored_acc (w_db w) a) wr)
      else (None, h1)) = (m, h1) -> h_retry h = false -> h_retry h1 = false).
  { intros m' h'. unfold ask. rewrite env. intros [= _ <-] R. cbn. now rewrite R. }
  destruct (h_acc h !! a) as [[v held]|]; [destruct (held || negb wr)|]; try apply F.
  now intros [= _ <-].
Qed.
Lemma gc_retry h a wr m h1 : get_account_code w h a wr = (m, h1) -> h_retry h = false -> h_retry h1 = false.
Proof.
  unfold get_account_code. destruct (is_precompile a); [now intros [= _ <-]|].
  assert (F : forall m h1, (let '(ok, h1) := ask w h in
      if ok then (d_code (w_db w) !! a, put_code h1 a (d_code (w_db w) !! a) wr)
      else (None, h1)) = (m, h1) -> h_retry h = false -> h_retry h1 = false).
  { intros m' h'. unfold ask. rewrite env. intros [= _ <-] R. cbn. now rewrite R. }
  destruct (h_code h !! a) as [[v held]|]; [destruct (held || negb wr)|]; try apply F.
  now intros [= _ <-].
Qed.
Lemma gs_retry h a wr m h1 : get_account_storage w h a wr = (m, h1) -> h_retry h = false -> h_retry h1 = false.
Proof.
  unfold get_account_storage. destruct (is_precompile (fst a)); [now intros [= _ <-]|].
  assert (F : forall m h1, (let '(ok, h1) := ask w h in
      if ok then (d_sto (w_db w) !! a, put_sto h1 a (d_sto (w_db w) !! a) wr)
      else (None, h1)) = (m, h1) -> h_retry h = false -> h_retry h1 = false).
  { intros m' h'. unfold ask. rewrite env. intros [= _ <-] R. cbn. now rewrite R. }
  destruct (h_sto h !! a) as [[v held]|]; [destruct (held || negb wr)|]; try apply F.
  now intros [= _ <-].
Qed.
Lemma gz_retry h a n h1 : get_code_size w h a = (n, h1) -> h_retry h = false -> h_retry h1 = false.
Proof.
  unfold get_code_size. destruct (is_precompile a); [now intros [= _ <-]|].
  destruct (get_account_code w h a false) eqn:E. intros [= _ <-]. exact (gc_retry _ _ _ _ _ E).
Qed.

(** A transfer from an account that is there goes through. *)
Lemma transfer_fine h x y z :
  h_retry h = false -> cache_ok w (h_acc h) -> view_of (view w h) x <> None ->
  exists h', transfer w h x y z = Fine h' /\ h_retry h' = false.
Proof.
  intros R C V. unfold transfer. rewrite ro. cbn [negb].
  destruct (get_account w h x true) as [m h1] eqn:E1.
  assert (R1 := ga_retry _ _ _ _ _ E1 R).
  destruct (get_account_view _ _ _ _ _ _ E1 R1 C) as (_ & _ & Hm & _).
  destruct m as [acc|]; [|congruence].
  match goal with |- context [get_account w ?H ?A ?B] =>
    destruct (get_account w H A B) as [q2 h6] eqn:E2 end.
  eexists. split; [reflexivity|]. cbn. apply (ga_retry _ _ _ _ _ E2). exact R1.
Qed.

Lemma enter_fine h top m :
  h_retry h = false -> cache_ok w (h_acc h) ->
  ((is_create m = true \/ is_call m = true) -> m_value m = 0 \/ view_of (view w h) (m_sender m) <> None) ->
  exists h1 en, enter w h top m = Fine (h1, en) /\ h_retry h1 = false.
Proof.
  intros R C V.
  assert (Cr : is_create m = true -> exists h1 en, enter_create w h top m = Fine (h1, en) /\ h_retry h1 = false).
  { intros K. unfold enter_create. destruct (get_account w h (m_sender m) false) as [ms h2] eqn:E1.
    assert (R1 := ga_retry _ _ _ _ _ E1 R).
    destruct (get_account_view _ _ _ _ _ _ E1 R1 C) as (Hv & C1 & Hm & _).
    destruct ms as [s|]; [|eauto].
    destruct (m_value m =? 0).
    - destruct top; eauto.
    - set (na := match m_kind m with KCreate => _ | _ => _ end).
      destruct (transfer_fine h2 (m_sender m) na (m_value m) R1 C1) as (h3 & -> & R3).
      { rewrite Hv, <- Hm. discriminate. }
      destruct top; eauto. }
  assert (Ca : (is_call m = false -> m_kind m <> KCall) ->
    exists h1 en, enter_call w h m = Fine (h1, en) /\ h_retry h1 = false).
  { intros K. unfold enter_call. set (native := _ && _).
    assert (T : exists h2, (if native then transfer w h (m_sender m) (m_recipient m) (m_value m) else Fine h) = Fine h2
                           /\ h_retry h2 = false).
    { destruct native eqn:Nt; [|eauto]. apply transfer_fine; auto. unfold native in Nt.
      apply andb_true_iff in Nt. destruct Nt as [N1 N2]. apply negb_true_iff, N.eqb_neq in N1.
      assert (Kc : is_call m = true) by (unfold is_call; destruct (m_kind m); congruence).
      destruct (V (or_intror Kc)) as [V0|V0]; [contradiction|exact V0]. }
    destruct T as (h2 & -> & R2).
    match goal with |- context [get_code_size w h2 ?A] =>
      destruct (get_code_size w h2 A) as [size h3] eqn:Z; set (ca := A) in * end.
    assert (R3 := gz_retry _ _ _ _ Z R2).
    destruct (Nat.eqb size 0).
    - destruct native; eauto.
    - destruct (get_account_code w h3 ca false) as [c h4] eqn:G. rewrite rel. cbn [andb].
      assert (R4 := gc_retry _ _ _ _ _ G R3). eauto. }
  unfold enter. unfold is_create, is_call in *. destruct (m_kind m); auto; apply Ca; congruence.
Qed.

Lemma step_fine r e :
  h_retry (r_host r) = false -> sane w r -> honest w r e ->
  match e with ESelfdestruct a _ => fst (get_account w (r_host r) a false) <> None | _ => True end ->
  step w r e <> Died /\ forall r', step w r e = Stepped r' -> h_retry (r_host r') = false.
Proof.
  intros R Sa Ho Hd. destruct (Sa R) as [C _]. unfold step.
  destruct (r_stack r) as [|f rest] eqn:St; [split; discriminate|].
  assert (W : forall o h1, o = Fine h1 -> h_retry h1 = false ->
    with_host r o <> Died /\ forall r', with_host r o = Stepped r' -> h_retry (r_host r') = false).
  { intros o h1 -> Q. split; [discriminate|]. now intros r' [= <-]. }
  destruct e as [x|x|x k|x k v|x|x|x|x b|l|m|s g out].
  - eapply (W _ _ eq_refl). destruct (get_account w (r_host r) x false) eqn:Q. exact (ga_retry _ _ _ _ _ Q R).
  - eapply (W _ _ eq_refl). unfold get_balance. destruct (get_account w (r_host r) x false) eqn:Q. exact (ga_retry _ _ _ _ _ Q R).
  - eapply (W _ _ eq_refl). destruct (get_account_storage w (r_host r) (x, k) false) eqn:Q. exact (gs_retry _ _ _ _ _ Q R).
  - unfold set_storage. rewrite ro, rel. cbn [negb andb].
    destruct (get_account w (r_host r) x false) as [[acc|] h1] eqn:E1; assert (R1 := ga_retry _ _ _ _ _ E1 R).
    + destruct (get_account_storage w h1 (x, k) true) as [q2 h6] eqn:E2.
      eapply (W _ _ eq_refl). exact (gs_retry _ _ _ _ _ E2 R1).
    + destruct (get_account w h1 x true) as [m2 h2] eqn:E2. assert (R2 := ga_retry _ _ _ _ _ E2 R1).
      match goal with |- context [get_account_storage w ?H ?A ?B] =>
        destruct (get_account_storage w H A B) as [q3 h6] eqn:E4 end.
      eapply (W _ _ eq_refl). exact (gs_retry _ _ _ _ _ E4 R2).
  - eapply (W _ _ eq_refl). destruct (get_code_size w (r_host r) x) eqn:Q. exact (gz_retry _ _ _ _ Q R).
  - eapply (W _ _ eq_refl). destruct (get_account_code w (r_host r) x false) eqn:Q. exact (gc_retry _ _ _ _ _ Q R).
  - eapply (W _ _ eq_refl). destruct (get_account_code w (r_host r) x false) eqn:Q. exact (gc_retry _ _ _ _ _ Q R).
  - unfold selfdestruct. destruct (transfer_fine (r_host r) x b 0 R C) as (h1 & E & R1).
    { destruct (get_account w (r_host r) x false) as [m h1] eqn:Q. cbn in Hd.
      destruct (get_account_view _ _ _ _ _ _ Q (ga_retry _ _ _ _ _ Q R) C) as (_ & _ & Hm & _). congruence. }
    exact (W _ _ E R1).
  - eapply (W _ _ eq_refl). exact R.
  - destruct (enter_fine (r_host r) false m R C) as (h1 & en & -> & R1).
    { intros K. destruct (honest_affordable w r f rest m St Ho R C K) as [_ [A|(y & Hy & _)]]; [now left|].
      right. congruence. }
    destruct en; (split; [discriminate|]); intros r' [= <-]; exact R1.
  - assert (L : forall top, h_retry (leave w (r_host r) top f s out) = false).
    { intros top. unfold leave.
      assert (Tp : forall h1, h_retry (if top then set_success (set_out h1 out) (is_success s) else h1) = h_retry h1)
        by now destruct top.
      rewrite Tp. destruct (f_new f) as [x|]; [destruct (is_success s)|]; try exact R.
      destruct (get_account w (r_host r) x (negb (w_ro w))) as [m h1] eqn:Q1.
      assert (R1 := ga_retry _ _ _ _ _ Q1 R).
      match goal with |- context [get_account_code w ?H ?A ?B] =>
        destruct (get_account_code w H A B) as [q2 h6] eqn:G end.
      cbn. apply (gc_retry _ _ _ _ _ G). exact R1. }
    destruct rest as [|f0 rest]; (split; [discriminate|]); intros r' Q.
    + assert (Q' : r' = Run (leave w (r_host r) true f s out) [] (Some (s, g))) by congruence.
      rewrite Q'. apply L.
    + assert (Q' : r' = Run (leave w (r_host r) false f s out) (f0 :: rest) None) by congruence.
      rewrite Q'. apply L.
Qed.

Lemma steps_fine es : forall r a,
  h_retry (r_host r) = false -> sane w r -> honest_run w r es -> destroys_existing w r es ->
  holds (r_host r) a ->
  steps w r es <> Died /\
  forall r', steps w r es = Stepped r' -> h_retry (r_host r') = false /\ holds (r_host r') a /\
                                       h_init (r_host r') = h_init (r_host r).
Proof.
  induction es as [|e es IH]; intros r a R Sa Ho Hd Hh.
  - split; [discriminate|]. intros r' [= <-]. auto.
  - destruct Ho as [Ho1 Ho2]. destruct Hd as [Hd1 Hd2].
    destruct (step_fine r e R Sa Ho1 Hd1) as [Nd K]. cbn [steps].
    destruct (step w r e) as [r1| |] eqn:E1; [|contradiction|split; discriminate].
    destruct (step_sum w r e r1 ro Sa Ho1 E1) as [S1 F1]. destruct (F1 (K r1 eq_refl)) as (_ & Hi & _).
    destruct (IH r1 a (K r1 eq_refl) S1 Ho2 Hd2 (step_holds _ _ _ _ _ ro E1 Hh)) as [Nd' K'].
    split; [exact Nd'|]. intros r' E. destruct (K' r' E) as (? & ? & ?). split_and!; auto. congruence.
Qed.
End Granted.

Theorem agent_lives w locks from t es :
  w_ro w = false -> w_dbg w = false -> (forall i, w_env w i = true) -> db_ok (w_db w) ->
  is_precompile from = false -> machine_honest w locks from t es ->
  (forall r, start w locks from t = Begun (Stepped r) -> destroys_existing w r es) ->
  execute w locks from t es <> Some ProcessEnds.
Proof.
  intros Hro Hrel Henv Hok Pf Ho Hd. unfold execute. unfold machine_honest in Ho.
  destruct (start w locks from t) as [| |s0] eqn:St; try discriminate.
  destruct (start_real _ _ _ _ _ Hro St) as (_ & _ & _ & Es).
  destruct (first_host_acc w from t Hro) as (Ea & Ei & Er & _).
  assert (H0 : holds (first_host w from t) from) by (exists (first_acc w from t); rewrite Ea; apply lookup_singleton).
  destruct (enter_fine w Henv Hro Hrel (first_host w from t) true (make_message w from t)) as (h1 & en & En & R1).
  { exact Er. }
  { rewrite Ea. now apply first_cache. }
  { intros _. right. cbn [m_sender make_message]. unfold view_of. rewrite Pf, lookup_view, Ea, lookup_singleton. discriminate. }
  assert (H1 := enter_holds _ _ _ _ _ _ _ Hro En H0).
  unfold start_exec in Es. rewrite En in Es.
  assert (Q : exists r, s0 = Stepped r /\ r_host r = h1) by (destruct en; eauto).
  destruct Q as (r & -> & Hr). clear Es. subst h1.
  destruct (begun _ _ _ _ _ Hro Hok Pf St) as (Sa & _ & _ & Bg & _). destruct (Bg R1) as (Hi & _).
  destruct (steps_fine w Henv Hro Hrel es r from R1 Sa Ho (Hd r eq_refl) H1) as [Nd K].
  destruct (steps w r es) as [r'| |] eqn:Ss; [|contradiction|discriminate].
  destruct (K r' eq_refl) as (R' & Hh' & Hi').
  destruct (r_result r') as [[s g]|]; [|discriminate]. intros [= E]. unfold conclude in E.
  rewrite R' in E.
  assert (Fz : forall h used, holds h from ->
    match finalize w h from (x_price t) g used with Dead => ProcessEnds | Fine h2 => Done (state_updates h2) end <> ProcessEnds).
  { intros h used [x Hx]. unfold finalize. rewrite Hro. unfold get_account. rewrite Pf, Hx. cbn. discriminate. }
  destruct s; try discriminate; apply (Fz _ _) in E; auto.
  exists (first_acc w from t). cbn. rewrite Hi', Hi. apply lookup_singleton.
Qed.
