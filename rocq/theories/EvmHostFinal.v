(** Proofs about EVM transactions: from the start of a transaction to its updates. *)
From Coq Require Import NArith List Bool Lia.
From stdpp Require Import gmap.
From Verif Require Import Base EvmHostModel EvmHostSpec EvmHostProofs EvmHostSteps EvmHostRuns.
Import ListNotations.
Open Scope N_scope.

(** ** The start *)
Definition gas_cost (t : etx) : N := wmul (x_limit t) (x_price t).
Definition first_acc (w : world) (from : N) (t : etx) : acct :=
  Acct (wsub (balance (w_db w) from) (gas_cost t)) (wadd (nonce (w_db w) from) 1) false.
Definition first_host (w : world) (from : N) (t : etx) : host :=
  insert_account w host0 from (first_acc w from t).
Definition first_view (w : world) (from : N) (t : etx) : gmap N acct :=
  view w (first_host w from t).

Lemma start_real w locks from t s :
  w_ro w = false -> start w locks from t = Begun s ->
  min_gas t <= x_limit t /\ wadd (nonce (w_db w) from) 1 = x_nonce t /\
  wadd (x_value t) (gas_cost t) <= balance (w_db w) from /\
  s = start_exec w (first_host w from t) (make_message w from t).
Proof.
  intros Hro. unfold start. destruct locks as [[l1 l2] l3]. rewrite Hro. cbn [negb]. rewrite andb_true_r.
  destruct (x_limit t <? min_gas t) eqn:G; [discriminate|]. apply N.ltb_ge in G.
  destruct l1; cbn [negb]; [|discriminate].
  assert (Eb : a_balance (match stored_acc (w_db w) from with Some a => a | None => acct0 end) = balance (w_db w) from).
  { unfold stored_acc, balance. now destruct (d_acc (w_db w) !! from) as [[b n]|]. }
  assert (En : a_nonce (match stored_acc (w_db w) from with Some a => a | None => acct0 end) = nonce (w_db w) from).
  { unfold stored_acc, nonce. now destruct (d_acc (w_db w) !! from) as [[b n]|]. }
  rewrite Eb, En. fold (gas_cost t). fold (first_acc w from t). fold (first_host w from t).
  destruct (wadd (nonce (w_db w) from) 1 =? x_nonce t) eqn:Nn; cbn [negb]; [|discriminate].
  apply N.eqb_eq in Nn.
  destruct (balance (w_db w) from <? wadd (x_value t) (gas_cost t)) eqn:B; [discriminate|].
  apply N.ltb_ge in B.
  destruct (l2 && l3); cbn [negb]; [|discriminate]. intros [= <-]. auto.
Qed.

Lemma first_host_acc w from t : w_ro w = false ->
  h_acc (first_host w from t) = {[from := (Some (first_acc w from t), true)]} /\
  h_init (first_host w from t) = {[from := (Some (first_acc w from t), true)]} /\
  h_retry (first_host w from t) = false /\ h_code (first_host w from t) = ∅ /\
  h_sto (first_host w from t) = ∅.
Proof.
  intros Hro. unfold first_host, insert_account. cbn [h_acc host0]. rewrite lookup_empty, Hro. cbn.
  now rewrite insert_empty.
Qed.

Lemma first_cache w from t : w_ro w = false -> cache_ok w {[from := (Some (first_acc w from t), true)]}.
Proof.
  intros Hro a _. destruct (decide (a = from)) as [->|Hn].
  - rewrite lookup_singleton. split; intros; discriminate.
  - rewrite lookup_singleton_ne by congruence. split; intros; discriminate.
Qed.

(** The accounts of the shards. *)
Definition stored_view (w : world) : gmap N acct := view w host0.

Lemma stored_view_lookup w a : stored_view w !! a = stored_acc (w_db w) a.
Proof. unfold stored_view. rewrite lookup_view. cbn. rewrite lookup_empty. apply stored_seen. Qed.

Lemma first_view_eq w from t : w_ro w = false ->
  first_view w from t = <[from := first_acc w from t]> (stored_view w).
Proof.
  intros Hro. apply map_eq. intros a. unfold first_view. rewrite lookup_view.
  destruct (first_host_acc w from t Hro) as (-> & _).
  destruct (decide (a = from)) as [->|Hn].
  - now rewrite lookup_singleton, lookup_insert.
  - rewrite lookup_singleton_ne, lookup_insert_ne by congruence.
    rewrite stored_view_lookup. apply stored_seen.
Qed.

Lemma stored_view_ok w : db_ok (w_db w) -> view_ok (stored_view w).
Proof.
  intros H a x. rewrite stored_view_lookup. unfold stored_acc.
  destruct (d_acc (w_db w) !! a) as [[b n]|] eqn:E; [|discriminate]. intros [= <-]. cbn. exact (H _ _ _ E).
Qed.

Lemma stored_view_total w : tot (stored_view w) = total (w_db w).
Proof.
  change (total (w_db w)) with (sum (fst : N * N -> N) (d_acc (w_db w))).
  apply sum_eq. intros k. unfold at_. rewrite stored_view_lookup. unfold stored_acc.
  now destruct (d_acc (w_db w) !! k) as [[b n]|].
Qed.

Lemma stored_view_at w a :
  a_balance (acc_at (stored_view w) a) = balance (w_db w) a /\
  a_nonce (acc_at (stored_view w) a) = nonce (w_db w) a /\ a_destruct (acc_at (stored_view w) a) = false.
Proof.
  unfold acc_at. rewrite stored_view_lookup. unfold stored_acc, balance, nonce.
  destruct (d_acc (w_db w) !! a) as [[b n]|]; auto.
Qed.

Lemma balance_ok d a : db_ok d -> balance d a < two256 /\ nonce d a < two256.
Proof.
  intros H. unfold balance, nonce. destruct (d_acc d !! a) as [[b n]|] eqn:E.
  - exact (H _ _ _ E).
  - pose proof two256_pos. auto.
Qed.

Lemma first_view_ok w from t : w_ro w = false -> db_ok (w_db w) -> view_ok (first_view w from t).
Proof.
  intros Hro H. rewrite first_view_eq by exact Hro.
  apply view_ok_insert; [now apply stored_view_ok|apply wsub_lt|apply wadd_lt].
Qed.

Lemma first_view_intact w from t : w_ro w = false -> intact (first_view w from t).
Proof.
  intros Hro. rewrite first_view_eq by exact Hro. apply intact_insert; [|reflexivity].
  intros a x. rewrite stored_view_lookup. unfold stored_acc.
  destruct (d_acc (w_db w) !! a) as [[b n]|]; [|discriminate]. now intros [= <-].
Qed.

(** What the money of the sender suffices for. *)
Lemma funds w from t :
  db_ok (w_db w) -> no_wrap t -> wadd (x_value t) (gas_cost t) <= balance (w_db w) from ->
  gas_cost t = x_limit t * x_price t /\
  x_value t + x_limit t * x_price t <= balance (w_db w) from /\
  a_balance (first_acc w from t) + x_limit t * x_price t = balance (w_db w) from.
Proof.
  intros Hok Hw Hr. unfold no_wrap in Hw.
  assert (Hc : gas_cost t = x_limit t * x_price t) by (apply wmul_exact; lia).
  rewrite Hc in Hr. rewrite wadd_exact in Hr by lia.
  destruct (balance_ok _ from Hok) as [Hb _].
  split_and!; auto. unfold first_acc. cbn. rewrite Hc, wsub_exact by lia. lia.
Qed.

Lemma first_total w from t :
  w_ro w = false -> db_ok (w_db w) -> no_wrap t ->
  wadd (x_value t) (gas_cost t) <= balance (w_db w) from ->
  tot (first_view w from t) + x_limit t * x_price t = total (w_db w).
Proof.
  intros Hro Hok Hw Hr. destruct (funds _ _ _ Hok Hw Hr) as (_ & _ & Hf).
  rewrite first_view_eq by exact Hro.
  pose proof (sum_insert a_balance (stored_view w) from (first_acc w from t)) as S.
  rewrite stored_view_total in S.
  assert (E : bal_at (stored_view w) from = balance (w_db w) from).
  { rewrite <- (proj1 (stored_view_at w from)). unfold at_, acc_at. now destruct (stored_view w !! from). }
  rewrite E in S. lia.
Qed.

Lemma vtransfer_nonce V from to value V' :
  vtransfer V from to value = Some V' -> value <> 0 -> view_ok V -> is_precompile from = false ->
  view_ok V' /\ forall a, is_precompile a = false -> same_nonce (acc_at V a) (acc_at V' a).
Proof.
  intros E Hz Hok Pf. unfold vtransfer in E. destruct (view_of V from) as [acc|] eqn:Ef; [|discriminate].
  destruct (view_of_ok _ _ _ Hok Ef) as [Hb Hn].
  apply N.eqb_neq in Hz. rewrite Hz in E.
  set (acc' := Acct (wsub (a_balance acc) value) (a_nonce acc) (a_destruct acc)) in *. set (V1 := <[from := acc']> V) in *.
  assert (Hok1 : view_ok V1) by (apply view_ok_insert; [exact Hok|apply wsub_lt|exact Hn]).
  assert (N1 : forall a, is_precompile a = false -> same_nonce (acc_at V a) (acc_at V1 a)).
  { intros a Pa. unfold V1. rewrite acc_at_insert. destruct (decide (a = from)) as [->|]; [|split; reflexivity].
    unfold view_of in Ef. rewrite Pf in Ef. unfold acc_at. rewrite Ef. split; reflexivity. }
  injection E as <-. split.
  - apply view_ok_insert; [exact Hok1|apply wadd_lt|]. cbn.
    destruct (view_of V1 to) eqn:Et; [exact (proj2 (view_of_ok _ _ _ Hok1 Et))|apply two256_pos].
  - intros a Pa. rewrite acc_at_insert. destruct (decide (a = to)) as [->|]; [|auto].
    rewrite acc_at_view_of by exact Pa. destruct (N1 to Pa) as [Q1 Q2]. split; assumption.
Qed.

Lemma message_facts w from t :
  w_ro w = false ->
  m_sender (make_message w from t) = from /\ m_value (make_message w from t) = x_value t /\
  m_gas (make_message w from t) = low64 (wsub (x_limit t) (min_gas t)) /\
  (is_create (make_message w from t) = true <-> x_to t = None) /\
  (forall a, x_to t = Some a -> is_call (make_message w from t) = true /\ m_recipient (make_message w from t) = a) /\
  (is_create (make_message w from t) = true \/ is_call (make_message w from t) = true).
Proof.
  intros Hro. unfold make_message, is_create, is_call. rewrite Hro.
  destruct (x_to t) as [a|]; cbn; split_and!; auto; try tauto.
  - split; discriminate.
  - intros a' [= <-]. auto.
  - discriminate.
Qed.

(** ** The first call *)
Lemma begun w locks from t r :
  w_ro w = false -> db_ok (w_db w) -> is_precompile from = false ->
  start w locks from t = Begun (Stepped r) ->
  sane w r /\ gas_ok (low64 (wsub (x_limit t) (min_gas t))) r /\
  (addresses_ok w -> stack_ok (r_stack r)) /\
  (h_retry (r_host r) = false ->
     h_init (r_host r) = {[from := (Some (first_acc w from t), true)]} /\
     (forall a, is_precompile a = false ->
        same_nonce (acc_at (first_view w from t) a) (acc_at (view w (r_host r)) a)) /\
     (no_wrap t ->
        tot (view w (r_host r)) <= tot (first_view w from t) /\
        (addresses_ok w -> (x_value t = 0 \/ forall a, x_to t = Some a -> is_precompile a = false) ->
         tot (first_view w from t) < two256 ->
         tot (view w (r_host r)) = tot (first_view w from t)) /\
        (intact (first_view w from t) -> intact (view w (r_host r))) /\
        (forall a, is_precompile a = false -> tot (first_view w from t) < two256 ->
           (a <> from -> no_worse (acc_at (first_view w from t) a) (acc_at (view w (r_host r)) a)) /\
           (a = from -> a_balance (acc_at (first_view w from t) a)
                        <= a_balance (acc_at (view w (r_host r)) a) + x_value t)))) /\
  (forall a, plain_account w a -> apart w a r).
Proof.
  intros Hro Hok Pf E. destruct (start_real _ _ _ _ _ Hro E) as (Hg & Hn & Hr & Es).
  symmetry in Es. unfold start_exec in Es.
  set (m := make_message w from t) in *. set (h0 := first_host w from t) in *.
  destruct (first_host_acc w from t Hro) as (Ea & Ei & Er & Ec & Esto). fold h0 in Ea, Ei, Er, Ec, Esto.
  destruct (message_facts w from t Hro) as (Ms & Mv & Mg & Mc & Mto & Mk). fold m in Ms, Mv, Mg, Mc, Mto, Mk.
  destruct (enter w h0 true m) as [[h1 en]|] eqn:En; [|discriminate].
  assert (C0 : cache_ok w (h_acc h0)) by (rewrite Ea; now apply first_cache).
  assert (V0ok : view_ok (view w h0)) by (exact (first_view_ok w from t Hro Hok)).
  assert (Eh : r_host r = h1) by (destruct en; now injection Es as <-).
  assert (Bal : a_balance (acc_at (view w h0) from) = a_balance (first_acc w from t)).
  { change (view w h0) with (first_view w from t). rewrite first_view_eq by exact Hro.
    rewrite acc_at_insert. destruct (decide (from = from)); [reflexivity|contradiction]. }
  assert (Vf : view_of (view w h0) from = Some (first_acc w from t)).
  { unfold view_of. rewrite Pf. change (view w h0) with (first_view w from t).
    rewrite first_view_eq by exact Hro. apply lookup_insert. }
  assert (Main : h_retry h1 = false ->
     cache_ok w (h_acc h1) /\ view_ok (view w h1) /\ h_init h1 = h_init h0 /\
     (forall a, is_precompile a = false -> same_nonce (acc_at (view w h0) a) (acc_at (view w h1) a)) /\
     (no_wrap t ->
        tot (view w h1) <= tot (view w h0) /\
        (addresses_ok w -> (x_value t = 0 \/ forall a, x_to t = Some a -> is_precompile a = false) ->
         tot (view w h0) < two256 -> tot (view w h1) = tot (view w h0)) /\
        (intact (view w h0) -> intact (view w h1)) /\
        (forall a, is_precompile a = false -> tot (view w h0) < two256 ->
           (a <> from -> no_worse (acc_at (view w h0) a) (acc_at (view w h1) a)) /\
           (a = from -> a_balance (acc_at (view w h0) a)
                        <= a_balance (acc_at (view w h1) a) + x_value t)))).
  { intros R. destruct (enter_view _ _ _ _ _ _ Hro En R C0) as (Hv & C1 & _ & Hi & _).
    split; [exact C1|].
    assert (Aff : no_wrap t -> affordable (view w h0) (m_sender m) (m_value m)).
    { intros Hw. right. exists (first_acc w from t). rewrite Ms, Mv. split; [exact Vf|].
      destruct (funds _ _ _ Hok Hw Hr) as (_ & Hf1 & Hf2). lia. }
    assert (Same : view w h1 = view w h0 -> view_ok (view w h1) /\ h_init h1 = h_init h0 /\
      (forall a, is_precompile a = false -> same_nonce (acc_at (view w h0) a) (acc_at (view w h1) a)) /\
      (no_wrap t -> forall a, is_precompile a = false -> tot (view w h0) < two256 ->
           (a <> from -> no_worse (acc_at (view w h0) a) (acc_at (view w h1) a)) /\
           (a = from -> a_balance (acc_at (view w h0) a)
                        <= a_balance (acc_at (view w h1) a) + x_value t))).
    { intros ->. split_and!; auto.
      - intros a _. split; reflexivity.
      - intros _ a _ _. split; [intros _; apply no_worse_refl|intros _; lia]. }
    assert (Trans : forall to, vtransfer (view w h0) from to (x_value t) = Some (view w h1) ->
      x_value t <> 0 -> view_ok (view w h1) /\ h_init h1 = h_init h0 /\
      (forall a, is_precompile a = false -> same_nonce (acc_at (view w h0) a) (acc_at (view w h1) a)) /\
      (no_wrap t -> forall a, is_precompile a = false -> tot (view w h0) < two256 ->
           (a <> from -> no_worse (acc_at (view w h0) a) (acc_at (view w h1) a)) /\
           (a = from -> a_balance (acc_at (view w h0) a)
                        <= a_balance (acc_at (view w h1) a) + x_value t))).
    { intros to T Hz. destruct (vtransfer_nonce _ _ _ _ _ T Hz V0ok Pf) as [K1 K2].
      split_and!; auto. intros Hw a Pa Ht. specialize (Aff Hw). rewrite Ms, Mv in Aff. split.
      - intros Ha. exact (proj2 (vtransfer_other _ _ _ _ _ a T V0ok Pa Ha Aff) Ht).
      - intros ->. destruct (funds _ _ _ Hok Hw Hr) as (_ & Hf1 & Hf2).
        refine (proj2 (vtransfer_from _ _ _ _ _ T V0ok Pf Hz _) Ht). rewrite Bal. lia. }
    assert (K : view_ok (view w h1) /\ h_init h1 = h_init h0 /\
      (forall a, is_precompile a = false -> same_nonce (acc_at (view w h0) a) (acc_at (view w h1) a)) /\
      (no_wrap t -> forall a, is_precompile a = false -> tot (view w h0) < two256 ->
           (a <> from -> no_worse (acc_at (view w h0) a) (acc_at (view w h1) a)) /\
           (a = from -> a_balance (acc_at (view w h0) a)
                        <= a_balance (acc_at (view w h1) a) + x_value t))).
    { unfold venter in Hv. rewrite Ms, Mv in Hv. destruct (is_create m).
      - rewrite Vf in Hv. destruct (x_value t =? 0) eqn:Z; [exact (Same Hv)|].
        apply N.eqb_neq in Z. exact (Trans _ Hv Z).
      - destruct (is_call m && negb (x_value t =? 0)) eqn:Z; [|exact (Same Hv)].
        apply andb_true_iff in Z. destruct Z as [_ Z]. apply negb_true_iff, N.eqb_neq in Z.
        exact (Trans _ Hv Z). }
    destruct K as (K1 & K2 & K3 & K4). split_and!; auto.
    intros Hw. specialize (K4 Hw).
    destruct (venter_sum w _ m _ Hv V0ok (fun _ => Aff Hw)) as (S1 & _ & S3 & S4).
    split_and!; auto; try (apply K4; assumption).
    intros A1 A2 A3. apply S3; auto. intros Kc. rewrite Mv. destruct A2 as [A2|A2]; [now left|].
    right. destruct (x_to t) as [b|] eqn:To.
    - destruct (Mto b eq_refl) as [_ ->]. now apply A2.
    - exfalso. assert (Kcr : is_create m = true) by now apply Mc.
      unfold is_create, is_call in *. destruct (m_kind m); discriminate. }
  split_and!.
  - intros R. rewrite Eh in *. destruct (Main R) as (? & ? & _). auto.
  - assert (G : en = Returned Revert 0 \/ en = Returned Success (m_gas m) \/ exists f, en = Running f /\ f_gas f = m_gas m).
    { revert En. unfold enter, enter_create, enter_call. clear -m.
      destruct (m_kind m);
      repeat match goal with
      | |- context [get_account w ?H ?A ?B] => destruct (get_account w H A B) as [[?|] ?]
      | |- context [get_code_size w ?H ?A] => destruct (get_code_size w H A) as [? ?]
      | |- context [get_account_code w ?H ?A ?B] => destruct (get_account_code w H A B) as [? ?]
      | |- context [transfer w ?H ?A ?B ?C] => destruct (transfer w H A B C)
      | |- context [m_value m =? 0] => destruct (m_value m =? 0); cbn [negb andb]
      | |- context [if ?b then _ else _] => destruct b
      end; intros X; try discriminate; injection X as _ <-; auto; right; right; eexists; split; reflexivity. }
    rewrite Mg in G. destruct G as [->|[->|(f & -> & Gf)]]; injection Es as <-; split; cbn; try discriminate.
    + intros s g [= _ <-]. apply N.le_0_l.
    + intros s g [= _ <-]. apply N.le_refl.
    + intros f' [= <-]. exact Gf.
  - intros [A1 A2]. destruct en as [s g|f]; injection Es as <-; cbn; [constructor|].
    constructor; [|constructor]. intros a Hf. revert En. unfold enter, enter_create, enter_call.
    destruct (m_kind m);
    repeat match goal with
    | |- context [get_account w ?H ?A ?B] => destruct (get_account w H A B) as [[?|] ?]
    | |- context [get_code_size w ?H ?A] => destruct (get_code_size w H A) as [? ?]
    | |- context [get_account_code w ?H ?A ?B] => destruct (get_account_code w H A B) as [? ?]
    | |- context [transfer w ?H ?A ?B ?C] => destruct (transfer w H A B C)
    | |- context [m_value m =? 0] => destruct (m_value m =? 0); cbn [negb andb]
    | |- context [if ?b then _ else _] => destruct b
    end; intros X; try discriminate; injection X as _ <-; cbn in Hf; try discriminate; injection Hf as <-; auto.
  - rewrite Eh. intros R. destruct (Main R) as (_ & _ & Hi & Hnn & Hs). rewrite Hi, Ei.
    split_and!; auto; intros Hw; apply (Hs Hw).
  - intros a Pl. destruct (enter_apart w a h0 true m h1 en Pl) as [N1 F1]; auto.
    + intros c f. rewrite Ec, lookup_empty. discriminate.
    + intros K1 K2. destruct Mk; congruence.
    + destruct en as [s g|f]; injection Es as <-; split; cbn; auto.
Qed.

(** ** The end *)
Definition fate (x : acct) : option (N * N) :=
  if a_destruct x then None else Some (a_balance x, a_nonce x).

Lemma apply_view w h : d_acc (apply_updates (w_db w) (state_updates h)) = omap fate (view w h).
Proof.
  apply map_eq. intros a. cbn. rewrite lookup_omap, lookup_view.
  rewrite lookup_merge. unfold diag_None. rewrite lookup_omap.
  destruct (h_acc h !! a) as [[[x|] []]|] eqn:E1; cbn;
    destruct (d_acc (w_db w) !! a) as [[b n]|] eqn:E2; cbn; unfold fate; try reflexivity;
    destruct (a_destruct x); reflexivity.
Qed.

Definition last_view (from : N) (refund : N) (V : gmap N acct) : gmap N acct :=
  <[from := Acct (wadd (a_balance (acc_at V from)) refund) (a_nonce (acc_at V from)) (a_destruct (acc_at V from))]> V.

Lemma finalize_view w h from price g used h2 :
  w_ro w = false -> is_precompile from = false ->
  finalize w h from price g used = Fine h2 -> h_retry h2 = false -> cache_ok w (h_acc h) ->
  view w h2 = last_view from (wmul g price) (view w h) /\ h_code h2 = h_code h /\ h_sto h2 = h_sto h /\
  h_logs h2 = h_logs h /\ h_gas h2 = used.
Proof.
  intros Hro Pf. unfold finalize. rewrite Hro.
  destruct (get_account w h from true) as [m h1] eqn:E. destruct m as [acc|]; [|discriminate].
  intros [= <-] R C. cbn in R.
  destruct (get_account_view _ _ _ _ _ _ E R C) as (Hv & _ & Hm & Hc & Hs & _).
  split_and!; cbn; auto.
  - change (view w (put_acc h1 from (Some (Acct (wadd (a_balance acc) (wmul g price)) (a_nonce acc) (a_destruct acc))) true)
      = last_view from (wmul g price) (view w h)).
    rewrite view_put, Hv. unfold last_view. unfold view_of in Hm. rewrite Pf in Hm.
    unfold acc_at. now rewrite <- Hm.
  - clear -E. revert E. unfold get_account.
    destruct (is_precompile from); [now intros [= _ <-]|].
    assert (F : forall m h1, (let '(ok, h1) := ask w h in
      if ok then (stored_acc (w_db w) from, put_acc h1 from (stored_acc (w_db w) from) true)
      else (None, h1)) = (m, h1) -> h_logs h1 = h_logs h).
    { intros m h2. unfold ask. destruct (w_env w (h_asked h)); now intros [= _ <-]. }
    destruct (h_acc h !! from) as [[v held]|]; [destruct (held || negb true)|]; try apply F.
    now intros [= _ <-].
Qed.

(** The accounts at the end of the outermost call, after a revert. *)
Definition end_view (w : world) (from : N) (t : etx) (s : status) (h : host) : gmap N acct :=
  match s with Revert => first_view w from t | _ => view w h end.

Lemma done_facts w locks from t es u :
  w_ro w = false -> db_ok (w_db w) -> is_precompile from = false ->
  machine_honest w locks from t es -> execute w locks from t es = Some (Done u) ->
  exists r r' s g,
    start w locks from t = Begun (Stepped r) /\ honest_run w r es /\
    steps w r es = Stepped r' /\ r_result r' = Some (s, g) /\ s <> Internal /\
    h_retry (r_host r') = false /\
    d_acc (apply_updates (w_db w) u) =
      omap fate (last_view from (wmul g (x_price t)) (end_view w from t s (r_host r'))) /\
    u_code u = omap plain_update (h_code (r_host r')) /\
    u_sto u = omap plain_update (h_sto (r_host r')) /\
    rc_gas (u_receipt u) = low64 (low64 (wsub (x_limit t) (min_gas t)) + 2 ^ 64 - g) /\
    rc_logs (u_receipt u) = h_logs (r_host r').
Proof.
  intros Hro Hok Pf Ho E. unfold execute in E. unfold machine_honest in Ho.
  destruct (start w locks from t) as [| |[r| |]] eqn:St; try discriminate.
  destruct (steps w r es) as [r'| |] eqn:Ss; try discriminate.
  destruct (r_result r') as [[s g]|] eqn:Rs; [|discriminate].
  injection E as E. exists r, r', s, g.
  destruct (begun _ _ _ _ _ Hro Hok Pf St) as (Sa & _ & _ & Bg & _).
  destruct (steps_sum w es r r' Hro Sa Ho Ss) as [Sa' Ff].
  unfold conclude in E.
  assert (Hs : s <> Internal) by (destruct s; congruence).
  assert (R : h_retry (r_host r') = false) by (destruct s, (h_retry (r_host r')); congruence).
  rewrite R in E. destruct (Ff R) as (R0 & Hi & _).
  destruct (Bg R0) as (Hi0 & _).
  assert (E' : match finalize w (match s with Revert => revert (r_host r') | _ => r_host r' end) from (x_price t) g
            (low64 (m_gas (make_message w from t) + 2 ^ 64 - g)) with
          | Dead => ProcessEnds | Fine h2 => Done (state_updates h2) end = Done u) by (destruct s; congruence).
  clear E. set (h1 := match s with Revert => revert (r_host r') | _ => r_host r' end) in *.
  assert (R1 : h_retry h1 = false) by (unfold h1; destruct s; exact R).
  assert (C1 : cache_ok w (h_acc h1)).
  { destruct (Sa' R) as [C _].
    assert (Cr : cache_ok w (h_init (r_host r'))) by (rewrite Hi, Hi0; now apply first_cache).
    unfold h1. destruct s; try exact C. exact Cr. }
  assert (V1 : view w h1 = end_view w from t s (r_host r')).
  { unfold h1, end_view. destruct s; try reflexivity. apply view_same_acc. cbn. rewrite Hi, Hi0.
    now destruct (first_host_acc w from t Hro). }
  assert (D1 : h_code h1 = h_code (r_host r') /\ h_sto h1 = h_sto (r_host r') /\ h_logs h1 = h_logs (r_host r'))
    by (unfold h1; destruct s; auto).
  destruct D1 as (D1 & D2 & D3). clearbody h1.
  destruct (finalize w h1 from (x_price t) g (low64 (m_gas (make_message w from t) + 2 ^ 64 - g)))
    as [h2|] eqn:Fz; [|discriminate]. injection E' as <-.
  assert (R2 : h_retry h2 = false).
  { revert Fz. unfold finalize. rewrite Hro. destruct (get_account w h1 from true) as [m h3] eqn:G.
    destruct m as [acc|]; [|discriminate]. intros [= <-]. cbn.
    destruct (h_retry h3) eqn:Q; [|reflexivity]. exfalso. revert G. unfold get_account. rewrite Pf.
    assert (F : forall h3, (let '(ok, h3) := ask w h1 in
      if ok then (stored_acc (w_db w) from, put_acc h3 from (stored_acc (w_db w) from) true)
      else (None, h3)) = (Some acc, h3) -> h_retry h3 = false).
    { intros h4. unfold ask. destruct (w_env w (h_asked h1)); intros X; [|discriminate].
      injection X as _ <-. cbn. now rewrite R1. }
    destruct (h_acc h1 !! from) as [[v held]|]; [destruct (held || negb true)|]; intros X;
      try (apply F in X; congruence). injection X as _ <-. congruence. }
  destruct (finalize_view _ _ _ _ _ _ _ Hro Pf Fz R2 C1) as (Hv & Hc & Hst & Hl & Hgas).
  split_and!; auto.
  - rewrite apply_view, Hv, V1. reflexivity.
  - cbn. now rewrite Hc, D1.
  - cbn. now rewrite Hst, D2.
  - cbn. rewrite Hgas. now destruct (message_facts w from t Hro) as (_ & _ & -> & _).
  - cbn. congruence.
Qed.

Lemma fate_total V : sum fst (omap fate V) <= tot V /\ (intact V -> sum fst (omap fate V) = tot V).
Proof.
  split.
  - apply sum_mono. intros k. unfold at_. rewrite lookup_omap. destruct (V !! k) as [x|]; cbn; [|lia].
    unfold fate. destruct (a_destruct x); cbn; lia.
  - intros I. apply sum_eq. intros k. unfold at_. rewrite lookup_omap.
    destruct (V !! k) as [x|] eqn:E; cbn; [|reflexivity]. unfold fate. now rewrite (I _ _ E).
Qed.

Lemma last_total from refund V :
  tot (last_view from refund V) <= tot V + refund /\
  (tot V + refund < two256 -> tot (last_view from refund V) = tot V + refund) /\
  (intact V -> intact (last_view from refund V)).
Proof.
  unfold last_view. set (x := Acct _ _ _).
  pose proof (sum_insert a_balance V from x) as S.
  assert (E : bal_at V from = a_balance (acc_at V from)) by (unfold at_, acc_at; now destruct (V !! from)).
  rewrite E in S. pose proof (wadd_le (a_balance (acc_at V from)) refund) as W.
  pose proof (at_le_sum a_balance V from) as L. rewrite E in L.
  change (a_balance x) with (wadd (a_balance (acc_at V from)) refund) in S.
  split_and!.
  - lia.
  - intros Ht. rewrite wadd_exact in S by lia. lia.
  - intros I. apply intact_insert; [exact I|]. cbn. unfold acc_at. destruct (V !! from) eqn:Q; [exact (I _ _ Q)|reflexivity].
Qed.

Lemma gas_back t g :
  x_limit t < two256 -> min_gas t <= x_limit t -> g <= low64 (wsub (x_limit t) (min_gas t)) ->
  let used := low64 (low64 (wsub (x_limit t) (min_gas t)) + 2 ^ 64 - g) in
  min_gas t + used + g <= x_limit t /\ (x_limit t < 2 ^ 64 -> min_gas t + used + g = x_limit t).
Proof.
  intros Hl Hm Hg. cbv zeta. rewrite wsub_exact in * by lia.
  unfold low64 in *. set (q := 2 ^ 64) in *. assert (Hq : q <> 0) by discriminate. clearbody q.
  pose proof (N.mod_lt (x_limit t - min_gas t) q Hq) as L1.
  pose proof (N.mod_le (x_limit t - min_gas t) q Hq) as L2.
  set (G := (x_limit t - min_gas t) mod q) in *.
  assert (U : (G + q - g) mod q = G - g).
  { replace (G + q - g) with (G - g + 1 * q) by lia. rewrite N.mod_add by exact Hq.
    apply N.mod_small. lia. }
  rewrite U. split; [lia|]. intros Hs. assert (G = x_limit t - min_gas t) by (apply N.mod_small; lia). lia.
Qed.

(** ** The theorems *)
Theorem no_mint w locks from t es u :
  w_ro w = false -> db_ok (w_db w) -> is_precompile from = false -> x_limit t < two256 -> no_wrap t ->
  machine_honest w locks from t es -> execute w locks from t es = Some (Done u) ->
  total (apply_updates (w_db w) u) + (min_gas t + rc_gas (u_receipt u)) * x_price t <= total (w_db w).
Proof.
  intros Hro Hok Pf Hl Hw Ho E.
  destruct (done_facts _ _ _ _ _ _ Hro Hok Pf Ho E) as
    (r & r' & s & g & St & Hh & Ss & Rs & Hs & R & Hd & _ & _ & Hg & _).
  destruct (begun _ _ _ _ _ Hro Hok Pf St) as (Sa & Gk & _ & Bg & _).
  destruct (start_real _ _ _ _ _ Hro St) as (Hm & _ & Hr & _).
  destruct (steps_sum w es r r' Hro Sa Hh Ss) as [_ Ff]. destruct (Ff R) as (R0 & _ & T1 & _).
  destruct (Bg R0) as (_ & _ & Bw). destruct (Bw Hw) as (T0 & _).
  destruct (steps_gas _ _ _ _ _ Gk Hh Ss) as [Gr _]. specialize (Gr s g Rs).
  pose proof (first_total _ _ _ Hro Hok Hw Hr) as FT.
  assert (TE : tot (end_view w from t s (r_host r')) <= tot (first_view w from t)).
  { unfold end_view. destruct s; lia. }
  unfold total at 1. change (map_fold _ 0 (d_acc (apply_updates (w_db w) u)))
    with (sum (fst : N * N -> N) (d_acc (apply_updates (w_db w) u))).
  rewrite Hd.
  pose proof (proj1 (fate_total (last_view from (wmul g (x_price t)) (end_view w from t s (r_host r'))))) as F1.
  pose proof (proj1 (last_total from (wmul g (x_price t)) (end_view w from t s (r_host r')))) as F2.
  pose proof (wmul_le g (x_price t)) as F3.
  destruct (gas_back t g Hl Hm Gr) as [Gb _]. rewrite <- Hg in Gb.
  assert (Gp : (min_gas t + rc_gas (u_receipt u)) * x_price t + g * x_price t <= x_limit t * x_price t).
  { rewrite <- N.mul_add_distr_r. now apply N.mul_le_mono_r. }
  lia.
Qed.

Theorem exact_total w locks from t es u :
  w_ro w = false -> db_ok (w_db w) -> is_precompile from = false -> x_limit t < 2 ^ 64 -> no_wrap t ->
  total (w_db w) < two256 -> addresses_ok w ->
  (x_value t = 0 \/ forall a, x_to t = Some a -> is_precompile a = false) ->
  Forall (keeps_value w) es ->
  machine_honest w locks from t es -> execute w locks from t es = Some (Done u) ->
  total (apply_updates (w_db w) u) + (min_gas t + rc_gas (u_receipt u)) * x_price t = total (w_db w).
Proof.
  intros Hro Hok Pf Hl Hw Ht Ha Hto Hk Ho E.
  destruct (done_facts _ _ _ _ _ _ Hro Hok Pf Ho E) as
    (r & r' & s & g & St & Hh & Ss & Rs & Hs & R & Hd & _ & _ & Hg & _).
  destruct (begun _ _ _ _ _ Hro Hok Pf St) as (Sa & Gk & Sk & Bg & _).
  destruct (start_real _ _ _ _ _ Hro St) as (Hm & _ & Hr & _).
  destruct (steps_sum w es r r' Hro Sa Hh Ss) as [_ Ff]. destruct (Ff R) as (R0 & _ & _ & X1).
  destruct (Bg R0) as (_ & _ & Bw). destruct (Bw Hw) as (_ & T0 & I0 & _).
  destruct (steps_gas _ _ _ _ _ Gk Hh Ss) as [Gr _]. specialize (Gr s g Rs).
  pose proof (first_total _ _ _ Hro Hok Hw Hr) as FT.
  assert (FL : tot (first_view w from t) < two256) by lia.
  specialize (T0 Ha Hto FL). destruct (X1 Ha (Sk Ha) Hk) as [T1 I1]; [lia|].
  assert (TE : tot (end_view w from t s (r_host r')) = tot (first_view w from t)).
  { unfold end_view. destruct s; lia. }
  assert (IE : intact (end_view w from t s (r_host r'))).
  { unfold end_view. pose proof (first_view_intact w from t Hro). destruct s; auto. }
  assert (Hl2 : x_limit t < two256).
  { eapply N.lt_trans; [exact Hl|exact pow64_lt]. }
  destruct (gas_back t g Hl2 Hm Gr) as [_ Gb]. specialize (Gb Hl). rewrite <- Hg in Gb.
  assert (Gp : (min_gas t + rc_gas (u_receipt u)) * x_price t + g * x_price t = x_limit t * x_price t).
  { rewrite <- N.mul_add_distr_r. now rewrite Gb. }
  assert (F3 : wmul g (x_price t) = g * x_price t) by (apply wmul_exact; lia).
  destruct (last_total from (wmul g (x_price t)) (end_view w from t s (r_host r'))) as (_ & F2 & I2).
  assert (F2' := F2 ltac:(lia)).
  pose proof (proj2 (fate_total _) (I2 IE)) as F1.
  unfold total at 1. change (map_fold _ 0 (d_acc (apply_updates (w_db w) u)))
    with (sum (fst : N * N -> N) (d_acc (apply_updates (w_db w) u))).
  rewrite Hd, F1. lia.
Qed.

Lemma balance_nonce_omap d V a :
  d_acc d = omap fate V ->
  nonce d a = (if a_destruct (acc_at V a) then 0 else a_nonce (acc_at V a)) /\
  balance d a = (if a_destruct (acc_at V a) then 0 else a_balance (acc_at V a)).
Proof.
  intros E. unfold nonce, balance, acc_at. rewrite E, lookup_omap.
  destruct (V !! a) as [x|]; cbn; [|auto]. unfold fate. destruct (a_destruct x); auto.
Qed.

Lemma first_view_at w from t a : w_ro w = false ->
  acc_at (first_view w from t) a = if decide (a = from) then first_acc w from t else acc_at (stored_view w) a.
Proof. intros Hro. rewrite first_view_eq by exact Hro. apply acc_at_insert. Qed.

(** Nonces: the sender's is that of the transaction, those of other accounts stay. *)
Theorem nonces w locks from t es u :
  w_ro w = false -> db_ok (w_db w) -> plain_account w from ->
  machine_honest w locks from t es -> execute w locks from t es = Some (Done u) ->
  wadd (nonce (w_db w) from) 1 = x_nonce t /\
  nonce (apply_updates (w_db w) u) from = x_nonce t /\
  (forall a, plain_account w a -> a <> from -> nonce (apply_updates (w_db w) u) a = nonce (w_db w) a).
Proof.
  intros Hro Hok Pl Ho E. assert (Pf := proj1 (proj1 Pl)).
  destruct (done_facts _ _ _ _ _ _ Hro Hok Pf Ho E) as
    (r & r' & s & g & St & Hh & Ss & Rs & Hs & R & Hd & _).
  destruct (begun _ _ _ _ _ Hro Hok Pf St) as (Sa & _ & _ & Bg & Ap).
  destruct (start_real _ _ _ _ _ Hro St) as (_ & Hn & _).
  destruct (steps_sum w es r r' Hro Sa Hh Ss) as [_ Ff]. destruct (Ff R) as (R0 & _).
  destruct (Bg R0) as (_ & Nn & _).
  assert (K : forall a, plain_account w a ->
    same_nonce (acc_at (first_view w from t) a) (acc_at (end_view w from t s (r_host r')) a)).
  { intros a Pa. destruct (steps_plain w a es r r' Hro Pa (Ap a Pa) Sa Hh Ss R) as (_ & Q & _).
    destruct (Nn a (proj1 (proj1 Pa))) as [Q1 Q2]. destruct Q as [Q3 Q4].
    unfold end_view. destruct s; split; congruence. }
  split; [exact Hn|].
  assert (L : forall a, plain_account w a -> nonce (apply_updates (w_db w) u) a = a_nonce (acc_at (first_view w from t) a)).
  { intros a Pa. rewrite (proj1 (balance_nonce_omap _ _ a Hd)). unfold last_view. rewrite acc_at_insert.
    destruct (K a Pa) as [K1 K2].
    assert (Df : a_destruct (acc_at (first_view w from t) a) = false).
    { rewrite first_view_at by exact Hro. destruct (decide (a = from)); [reflexivity|].
      apply stored_view_at. }
    destruct (decide (a = from)) as [->|]; cbn; rewrite K2, Df; exact K1. }
  split.
  - rewrite (L from Pl), first_view_at by exact Hro. destruct (decide (from = from)); [|contradiction].
    exact Hn.
  - intros a Pa Hne. rewrite (L a Pa), first_view_at by exact Hro. destruct (decide (a = from)); [contradiction|].
    apply stored_view_at.
Qed.

(** Balances of accounts no code runs as: the sender pays for the value and the gas, and
    nobody else pays. *)
Theorem others_money w locks from t es u :
  w_ro w = false -> db_ok (w_db w) -> plain_account w from -> no_wrap t -> total (w_db w) < two256 ->
  machine_honest w locks from t es -> execute w locks from t es = Some (Done u) ->
  balance (w_db w) from <= balance (apply_updates (w_db w) u) from + x_value t + x_limit t * x_price t /\
  (forall a, plain_account w a -> a <> from -> balance (w_db w) a <= balance (apply_updates (w_db w) u) a).
Proof.
  intros Hro Hok Pl Hw Ht Ho E. assert (Pf := proj1 (proj1 Pl)).
  pose proof (done_facts _ _ _ _ _ _ Hro Hok Pf Ho E) as
    (r & r' & s & g & St & Hh & Ss & Rs & Hs & R & Hd & _).
  destruct (begun _ _ _ _ _ Hro Hok Pf St) as (Sa & Gk & _ & Bg & Ap).
  destruct (start_real _ _ _ _ _ Hro St) as (Hm & Hn & Hr & _).
  destruct (steps_sum w es r r' Hro Sa Hh Ss) as [_ Ff]. destruct (Ff R) as (R0 & _ & T1 & _).
  destruct (Bg R0) as (_ & Nn & Bw). destruct (Bw Hw) as (T0 & _ & _ & Wn).
  pose proof (first_total _ _ _ Hro Hok Hw Hr) as FT.
  assert (FL : tot (first_view w from t) < two256) by lia.
  destruct (steps_gas _ _ _ _ _ Gk Hh Ss) as [Gr _]. specialize (Gr s g Rs).
  assert (K : forall a, plain_account w a ->
    no_worse (acc_at (view w (r_host r)) a) (acc_at (view w (r_host r')) a)).
  { intros a Pa. destruct (steps_plain w a es r r' Hro Pa (Ap a Pa) Sa Hh Ss R) as (_ & _ & Q).
    apply Q. lia. }
  assert (Df : forall a, a_destruct (acc_at (first_view w from t) a) = false).
  { intros a. rewrite first_view_at by exact Hro. destruct (decide (a = from)); [reflexivity|].
    apply stored_view_at. }
  split.
  - rewrite (proj2 (balance_nonce_omap _ _ from Hd)). unfold last_view. rewrite acc_at_insert.
    destruct (decide (from = from)); [|contradiction]. cbn.
    destruct (K from Pl) as (K1 & K2 & K3). destruct (Nn from Pf) as [_ N2].
    destruct (Wn from Pf FL) as [_ W2]. specialize (W2 eq_refl).
    assert (De : a_destruct (acc_at (end_view w from t s (r_host r')) from) = false).
    { unfold end_view. specialize (Df from). destruct s; congruence. }
    rewrite De.
    assert (Eb : a_balance (acc_at (first_view w from t) from) <=
                 a_balance (acc_at (end_view w from t s (r_host r')) from) + x_value t).
    { unfold end_view. destruct s; lia. }
    rewrite first_view_at in Eb by exact Hro. destruct (decide (from = from)); [|contradiction].
    destruct (funds _ _ _ Hok Hw Hr) as (_ & Hf1 & Hf2).
    assert (TE : tot (end_view w from t s (r_host r')) <= tot (first_view w from t)).
    { unfold end_view. destruct s; lia. }
    assert (Bt : a_balance (acc_at (end_view w from t s (r_host r')) from) <= tot (end_view w from t s (r_host r'))).
    { pose proof (at_le_sum a_balance (end_view w from t s (r_host r')) from) as L.
      unfold at_ in L. unfold acc_at. destruct (_ !! from); [exact L|]. cbn. lia. }
    assert (Gl : g <= x_limit t).
    { unfold low64 in Gr. pose proof (N.mod_le (wsub (x_limit t) (min_gas t)) (2 ^ 64) ltac:(discriminate)) as L1.
      assert (L2 : wsub (x_limit t) (min_gas t) <= x_limit t).
      { unfold wsub. pose proof two256_pos.
        destruct (N.lt_ge_cases (x_limit t) two256) as [Lt|Ge].
        - rewrite (N.mod_small (min_gas t)) by lia.
          replace (x_limit t + two256 - min_gas t) with (x_limit t - min_gas t + 1 * two256) by lia.
          rewrite N.mod_add by lia. etransitivity; [apply N.mod_le; lia|]. lia.
        - pose proof (N.mod_lt (x_limit t + two256 - min_gas t mod two256) two256). lia. }
      lia. }
    assert (Gc : g * x_price t <= x_limit t * x_price t) by now apply N.mul_le_mono_r.
    assert (Rf : wmul g (x_price t) = g * x_price t).
    { apply wmul_exact. unfold no_wrap in Hw. lia. }
    rewrite Rf. rewrite wadd_exact by lia. lia.
  - intros a Pa Hne. rewrite (proj2 (balance_nonce_omap _ _ a Hd)). unfold last_view. rewrite acc_at_insert.
    destruct (decide (a = from)); [contradiction|].
    destruct (K a Pa) as (K1 & K2 & K3). destruct (Nn a (proj1 (proj1 Pa))) as [_ N2].
    destruct (Wn a (proj1 (proj1 Pa)) FL) as [W1 _]. destruct (W1 Hne) as (_ & _ & W3).
    assert (De : a_destruct (acc_at (end_view w from t s (r_host r')) a) = false).
    { unfold end_view. specialize (Df a). destruct s; congruence. }
    rewrite De.
    assert (Eb : a_balance (acc_at (first_view w from t) a) <= a_balance (acc_at (end_view w from t s (r_host r')) a)).
    { unfold end_view. destruct s; lia. }
    rewrite first_view_at in Eb by exact Hro. destruct (decide (a = from)); [contradiction|].
    rewrite (proj1 (stored_view_at w a)) in Eb. exact Eb.
Qed.
