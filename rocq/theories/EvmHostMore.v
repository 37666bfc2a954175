(** Proofs about EVM transactions: reverted transactions, dry runs, receipts, histories. *)
From Coq Require Import NArith List Bool Lia.
From stdpp Require Import gmap.
From Verif Require Import Base EvmHostModel EvmHostSpec EvmHostProofs EvmHostSteps EvmHostRuns EvmHostFinal.
Import ListNotations.
Open Scope N_scope.

(** ** Reverted transactions *)
Lemma cached_from w h from x :
  is_precompile from = false -> h_acc h !! from = Some (Some x, true) ->
  get_account w h from true = (Some x, h).
Proof. intros P E. unfold get_account. rewrite P, E. reflexivity. Qed.

Theorem revert_accounts w locks from t es u :
  w_ro w = false -> db_ok (w_db w) -> is_precompile from = false -> x_limit t < 2 ^ 64 -> no_wrap t ->
  machine_honest w locks from t es -> execute w locks from t es = Some (Done u) ->
  call_status w locks from t es = Some Revert ->
  exists b, u_acc u = {[from := Some (b, x_nonce t)]} /\
    b + (min_gas t + rc_gas (u_receipt u)) * x_price t = balance (w_db w) from.
Proof.
  intros Hro Hok Pf Hl Hw Ho E Cs. unfold execute in E. unfold call_status in Cs. unfold machine_honest in Ho.
  destruct (start w locks from t) as [| |[r| |]] eqn:St; try discriminate.
  destruct (steps w r es) as [r'| |] eqn:Ss; try discriminate.
  destruct (r_result r') as [[s g]|] eqn:Rs; [|discriminate]. cbn in Cs. injection Cs as ->.
  injection E as E.
  destruct (begun _ _ _ _ _ Hro Hok Pf St) as (Sa & Gk & _ & Bg & _).
  destruct (start_real _ _ _ _ _ Hro St) as (Hm & Hn & Hr & _).
  destruct (steps_sum w es r r' Hro Sa Ho Ss) as [_ Ff].
  destruct (steps_gas _ _ _ _ _ Gk Ho Ss) as [Gr _]. specialize (Gr _ _ Rs).
  unfold conclude in E. destruct (h_retry (r_host r')) eqn:R; [discriminate|].
  destruct (Ff eq_refl) as (R0 & Hi & _). destruct (Bg R0) as (Hi0 & _).
  unfold finalize in E. rewrite Hro in E.
  rewrite (cached_from w (revert (r_host r')) from (first_acc w from t)) in E.
  2: exact Pf.
  2: { cbn. rewrite Hi, Hi0. apply lookup_singleton. }
  cbn in E. injection E as <-. cbn.
  exists (wadd (wsub (balance (w_db w) from) (gas_cost t)) (wmul g (x_price t))).
  split.
  - rewrite Hi, Hi0, insert_singleton. rewrite <- Hn. now rewrite omap_singleton.
  - try rewrite Hro.
    assert (Hl2 : x_limit t < two256) by (eapply N.lt_trans; [exact Hl|exact pow64_lt]).
    destruct (gas_back t g Hl2 Hm Gr) as [_ Gb]. specialize (Gb Hl).
    destruct (funds _ _ _ Hok Hw Hr) as (Hc & Hf1 & Hf2). cbn in Hf2.
    assert (Gp : (min_gas t + low64 (low64 (wsub (x_limit t) (min_gas t)) + 2 ^ 64 - g)) * x_price t + g * x_price t
                 = x_limit t * x_price t).
    { rewrite <- N.mul_add_distr_r. now rewrite Gb. }
    destruct (balance_ok _ from Hok) as [Hb _].
    rewrite (wmul_exact g) by (unfold no_wrap in Hw; lia).
    rewrite wadd_exact by lia. lia.
Qed.

(** ** No write entries *)
Definition ro_map {K A} `{Countable K} (m : gmap K (option A * bool)) : Prop :=
  forall k v f, m !! k = Some (v, f) -> f = false.

Lemma ro_map_insert {K A} `{Countable K} (m : gmap K (option A * bool)) k v :
  ro_map m -> ro_map (<[k := (v, false)]> m).
Proof.
  intros Hm j v' f. destruct (decide (j = k)) as [->|Hn].
  - rewrite lookup_insert. now intros [= _ <-].
  - rewrite lookup_insert_ne by congruence. apply Hm.
Qed.
Lemma ro_map_omap {K A} `{Countable K} (m : gmap K (option A * bool)) :
  ro_map m -> omap plain_update m = ∅.
Proof.
  intros Hm. apply map_eq. intros k. rewrite lookup_omap, lookup_empty.
  destruct (m !! k) as [[v f]|] eqn:E; [|reflexivity]. cbn. rewrite (Hm _ _ _ E). now destruct v.
Qed.

Lemma get_code_ro w h a m h1 :
  get_account_code w h a false = (m, h1) -> ro_map (h_code h) -> ro_map (h_code h1).
Proof.
  unfold get_account_code. destruct (is_precompile a); [now intros [= _ <-]|].
  assert (F : forall m h1, (let '(ok, h1) := ask w h in
      if ok then (d_code (w_db w) !! a, put_code h1 a (d_code (w_db w) !! a) false)
      else (None, h1)) = (m, h1) -> ro_map (h_code h) -> ro_map (h_code h1)).
  { intros m' h'. unfold ask. destruct (w_env w (h_asked h)); intros [= _ <-] Hm; [|exact Hm].
    cbn. now apply ro_map_insert. }
  destruct (h_code h !! a) as [[v held]|]; [destruct (held || negb false)|]; try apply F.
  now intros [= _ <-].
Qed.
Lemma get_sto_ro w h k m h1 :
  get_account_storage w h k false = (m, h1) -> ro_map (h_sto h) -> ro_map (h_sto h1).
Proof.
  unfold get_account_storage. destruct (is_precompile (fst k)); [now intros [= _ <-]|].
  assert (F : forall m h1, (let '(ok, h1) := ask w h in
      if ok then (d_sto (w_db w) !! k, put_sto h1 k (d_sto (w_db w) !! k) false)
      else (None, h1)) = (m, h1) -> ro_map (h_sto h) -> ro_map (h_sto h1)).
  { intros m' h'. unfold ask. destruct (w_env w (h_asked h)); intros [= _ <-] Hm; [|exact Hm].
    cbn. now apply ro_map_insert. }
  destruct (h_sto h !! k) as [[v held]|]; [destruct (held || negb false)|]; try apply F.
  now intros [= _ <-].
Qed.
Lemma get_account_ro w h a m h1 :
  get_account w h a false = (m, h1) -> ro_map (h_acc h) -> ro_map (h_acc h1).
Proof.
  unfold get_account. destruct (is_precompile a); [now intros [= _ <-]|].
  assert (F : forall m h1, (let '(ok, h1) := ask w h in
      if ok then (stored_acc (w_db w) a, put_acc h1 a (stored_acc (w_db w) a) false)
      else (None, h1)) = (m, h1) -> ro_map (h_acc h) -> ro_map (h_acc h1)).
  { intros m' h'. unfold ask. destruct (w_env w (h_asked h)); intros [= _ <-] Hm; [|exact Hm].
    cbn. now apply ro_map_insert. }
  destruct (h_acc h !! a) as [[v held]|]; [destruct (held || negb false)|]; try apply F.
  now intros [= _ <-].
Qed.

(** get_account leaves the other maps alone. *)
Lemma get_account_frame w h a wr m h1 :
  get_account w h a wr = (m, h1) ->
  h_code h1 = h_code h /\ h_sto h1 = h_sto h /\ h_init h1 = h_init h /\ h_create h1 = h_create h /\
  h_success h1 = h_success h /\ h_logs h1 = h_logs h.
Proof.
  unfold get_account. destruct (is_precompile a); [intros [= _ <-]; auto 10|].
  assert (F : forall m h1, (let '(ok, h1) := ask w h in
      if ok then (stored_acc (w_db w) a, put_acc h1 a (stored_acc (w_db w) a) wr)
      else (None, h1)) = (m, h1) ->
      h_code h1 = h_code h /\ h_sto h1 = h_sto h /\ h_init h1 = h_init h /\ h_create h1 = h_create h /\
      h_success h1 = h_success h /\ h_logs h1 = h_logs h).
  { intros m' h'. unfold ask. destruct (w_env w (h_asked h)); intros [= _ <-]; cbn; auto 10. }
  destruct (h_acc h !! a) as [[v held]|]; [destruct (held || negb wr)|]; try apply F.
  intros [= _ <-]; auto 10.
Qed.
Lemma get_code_rest w h a wr m h1 :
  get_account_code w h a wr = (m, h1) ->
  h_acc h1 = h_acc h /\ h_sto h1 = h_sto h /\ h_create h1 = h_create h /\
  h_success h1 = h_success h /\ h_logs h1 = h_logs h.
Proof.
  unfold get_account_code. destruct (is_precompile a); [intros [= _ <-]; auto 10|].
  assert (F : forall m h1, (let '(ok, h1) := ask w h in
      if ok then (d_code (w_db w) !! a, put_code h1 a (d_code (w_db w) !! a) wr)
      else (None, h1)) = (m, h1) ->
      h_acc h1 = h_acc h /\ h_sto h1 = h_sto h /\ h_create h1 = h_create h /\
      h_success h1 = h_success h /\ h_logs h1 = h_logs h).
  { intros m' h'. unfold ask. destruct (w_env w (h_asked h)); intros [= _ <-]; cbn; auto 10. }
  destruct (h_code h !! a) as [[v held]|]; [destruct (held || negb wr)|]; try apply F.
  intros [= _ <-]; auto 10.
Qed.
Lemma get_sto_rest w h k wr m h1 :
  get_account_storage w h k wr = (m, h1) ->
  h_acc h1 = h_acc h /\ h_code h1 = h_code h /\ h_create h1 = h_create h /\
  h_success h1 = h_success h /\ h_logs h1 = h_logs h.
Proof.
  unfold get_account_storage. destruct (is_precompile (fst k)); [intros [= _ <-]; auto 10|].
  assert (F : forall m h1, (let '(ok, h1) := ask w h in
      if ok then (d_sto (w_db w) !! k, put_sto h1 k (d_sto (w_db w) !! k) wr)
      else (None, h1)) = (m, h1) ->
      h_acc h1 = h_acc h /\ h_code h1 = h_code h /\ h_create h1 = h_create h /\
      h_success h1 = h_success h /\ h_logs h1 = h_logs h).
  { intros m' h'. unfold ask. destruct (w_env w (h_asked h)); intros [= _ <-]; cbn; auto 10. }
  destruct (h_sto h !! k) as [[v held]|]; [destruct (held || negb wr)|]; try apply F.
  intros [= _ <-]; auto 10.
Qed.
Lemma get_size_rest w h a n h1 :
  get_code_size w h a = (n, h1) ->
  h_acc h1 = h_acc h /\ h_sto h1 = h_sto h /\ h_create h1 = h_create h /\
  h_success h1 = h_success h /\ h_logs h1 = h_logs h /\ (ro_map (h_code h) -> ro_map (h_code h1)).
Proof.
  unfold get_code_size. destruct (is_precompile a); [intros [= _ <-]; auto 10|].
  destruct (get_account_code w h a false) as [m h2] eqn:E. intros [= _ <-].
  destruct (get_code_rest _ _ _ _ _ _ E) as (? & ? & ? & ? & ?).
  split_and!; auto. exact (get_code_ro _ _ _ _ _ E).
Qed.
Lemma transfer_rest w h x y z h' :
  transfer w h x y z = Fine h' ->
  h_code h' = h_code h /\ h_sto h' = h_sto h /\ h_create h' = h_create h /\
  h_success h' = h_success h /\ h_logs h' = h_logs h.
Proof.
  unfold transfer. destruct (get_account w h x (negb (w_ro w))) as [[acc|] h1] eqn:E1; [|discriminate].
  destruct (get_account_frame _ _ _ _ _ _ E1) as (? & ? & ? & ? & ? & ?).
  match goal with |- context [get_account w ?H ?A ?B] =>
    destruct (get_account w H A B) as [q2 h6] eqn:E2 end.
  destruct (get_account_frame _ _ _ _ _ _ E2) as (A1 & A2 & A3 & A4 & A5 & A6).
  cbn in A1, A2, A3, A4, A5, A6. intros [= <-]. cbn. split_and!; congruence.
Qed.
Lemma transfer_ro w h x y z h' :
  w_ro w = true -> transfer w h x y z = Fine h' -> ro_map (h_acc h) -> ro_map (h_acc h').
Proof.
  intros Hro. unfold transfer. rewrite Hro. cbn [negb].
  destruct (get_account w h x false) as [[acc|] h1] eqn:E1; [|discriminate].
  match goal with |- context [get_account w ?H ?A ?B] =>
    destruct (get_account w H A B) as [q2 h6] eqn:E2 end.
  intros [= <-] Hm. cbn. apply ro_map_insert. apply (get_account_ro _ _ _ _ _ E2). cbn.
  apply ro_map_insert. exact (get_account_ro _ _ _ _ _ E1 Hm).
Qed.
Lemma set_storage_rest w h a k v h' :
  set_storage w h a k v = Fine h' ->
  h_code h' = h_code h /\ h_create h' = h_create h /\ h_success h' = h_success h /\ h_logs h' = h_logs h.
Proof.
  unfold set_storage. destruct (get_account w h a false) as [[acc|] h1] eqn:E1;
    destruct (get_account_frame _ _ _ _ _ _ E1) as (? & ? & ? & ? & ? & ?).
  - match goal with |- context [get_account_storage w ?H ?A ?B] =>
      destruct (get_account_storage w H A B) as [q2 h6] eqn:E2 end.
    destruct (get_sto_rest _ _ _ _ _ _ E2) as (? & ? & ? & ? & ?).
    intros [= <-]. cbn. split_and!; congruence.
  - destruct (if negb (w_ro w) then get_account w h1 a true else (None, h1)) as [m2 h2] eqn:E3.
    assert (F : h_code h2 = h_code h1 /\ h_create h2 = h_create h1 /\ h_success h2 = h_success h1 /\
                h_logs h2 = h_logs h1).
    { destruct (negb (w_ro w)).
      - destruct (get_account_frame _ _ _ _ _ _ E3) as (? & ? & ? & ? & ? & ?). auto.
      - now injection E3 as _ <-. }
    destruct F as (? & ? & ? & ?).
    destruct (w_dbg w && _); [discriminate|].
    match goal with |- context [get_account_storage w ?H ?A ?B] =>
      destruct (get_account_storage w H A B) as [q3 h6] eqn:E4 end.
    destruct (get_sto_rest _ _ _ _ _ _ E4) as (A1 & A2 & A3 & A4 & A5). cbn in A1, A2, A3, A4, A5.
    intros [= <-]. cbn. split_and!; congruence.
Qed.
Lemma set_storage_ro w h a k v h' :
  w_ro w = true -> set_storage w h a k v = Fine h' -> ro_map (h_acc h) -> ro_map (h_sto h) ->
  ro_map (h_acc h') /\ ro_map (h_sto h').
Proof.
  intros Hro. unfold set_storage. rewrite Hro. cbn [negb].
  assert (Last : forall h5 acc, ro_map (h_acc h5) ->
    ro_map (<[a := (Some acc, match h_acc h5 !! a with Some (_, f) => f | None => false end)]> (h_acc h5))).
  { intros h5 acc Hm. destruct (h_acc h5 !! a) as [[x f]|] eqn:Q.
    - rewrite (Hm _ _ _ Q). now apply ro_map_insert.
    - now apply ro_map_insert. }
  destruct (get_account w h a false) as [[acc|] h1] eqn:E1;
    destruct (get_account_frame _ _ _ _ _ _ E1) as (_ & Hs1 & _).
  - destruct (get_account_storage w h1 (a, k) false) as [q2 h6] eqn:E2.
    intros [= <-] H1 H2. destruct (get_sto_rest _ _ _ _ _ _ E2) as (Ha & _).
    assert (H3 := get_account_ro _ _ _ _ _ E1 H1).
    split.
    + apply (Last (put_sto h6 (a, k) (Some v) false)). cbn. now rewrite Ha.
    + cbn. apply ro_map_insert. apply (get_sto_ro _ _ _ _ _ E2). now rewrite Hs1.
  - rewrite andb_false_r.
    destruct (get_account_storage w (put_acc h1 a (Some acct0) false) (a, k) false) as [q2 h6] eqn:E2.
    intros [= <-] H1 H2. destruct (get_sto_rest _ _ _ _ _ _ E2) as (Ha & _).
    assert (H3 := get_account_ro _ _ _ _ _ E1 H1).
    split.
    + apply (Last (put_sto h6 (a, k) (Some v) false)). cbn. rewrite Ha. cbn. now apply ro_map_insert.
    + cbn. apply ro_map_insert. apply (get_sto_ro _ _ _ _ _ E2). cbn. now rewrite Hs1.
Qed.

(** ** Dry runs *)
Definition all_ro (h : host) : Prop := ro_map (h_acc h) /\ ro_map (h_code h) /\ ro_map (h_sto h).

Lemma enter_ro w h top m h1 en :
  w_ro w = true -> enter w h top m = Fine (h1, en) -> all_ro h -> all_ro h1.
Proof.
  intros Hro. assert (Cr : enter_create w h top m = Fine (h1, en) -> all_ro h -> all_ro h1).
  { unfold enter_create. destruct (get_account w h (m_sender m) false) as [ms h2] eqn:E1.
    destruct (get_account_frame _ _ _ _ _ _ E1) as (Hc & Hs & _).
    intros E (H1 & H2 & H3).
    assert (A2 : all_ro h2).
    { split_and!; [exact (get_account_ro _ _ _ _ _ E1 H1)|now rewrite Hc|now rewrite Hs]. }
    destruct ms as [s|]; [|now injection E as <- _].
    match type of E with context [if m_value m =? 0 then Fine h2 else ?T] =>
      destruct (if m_value m =? 0 then Fine h2 else T) as [h3|] eqn:T3 end; [|discriminate].
    assert (A3 : all_ro h3).
    { destruct (m_value m =? 0); [now injection T3 as <-|].
      destruct (transfer_rest _ _ _ _ _ _ T3) as (Tc & Ts & _). destruct A2 as (B1 & B2 & B3).
      split_and!; [exact (transfer_ro _ _ _ _ _ _ Hro T3 B1)|now rewrite Tc|now rewrite Ts]. }
    injection E as <- _. destruct top; exact A3. }
  assert (Ca : enter_call w h m = Fine (h1, en) -> all_ro h -> all_ro h1).
  { unfold enter_call. set (native := _ && _).
    destruct (if native then transfer w h (m_sender m) (m_recipient m) (m_value m) else Fine h)
      as [h2|] eqn:T; [|discriminate].
    intros E A. assert (A2 : all_ro h2).
    { destruct native; [|now injection T as <-].
      destruct (transfer_rest _ _ _ _ _ _ T) as (Tc & Ts & _). destruct A as (B1 & B2 & B3).
      split_and!; [exact (transfer_ro _ _ _ _ _ _ Hro T B1)|now rewrite Tc|now rewrite Ts]. }
    revert E. match goal with |- context [get_code_size w h2 ?A] =>
      destruct (get_code_size w h2 A) as [size h3] eqn:Z; set (ca := A) in * end.
    destruct (get_size_rest _ _ _ _ _ Z) as (Za & Zs & _ & _ & _ & Zc).
    assert (A3 : all_ro h3).
    { destruct A2 as (B1 & B2 & B3). split_and!; [now rewrite Za|auto|now rewrite Zs]. }
    destruct (Nat.eqb size 0).
    - intros [= <- _]. destruct native; exact A3.
    - destruct (get_account_code w h3 ca false) as [c h4] eqn:G. destruct (w_dbg w && _); [discriminate|].
      intros [= <- _]. destruct (get_code_rest _ _ _ _ _ _ G) as (Ga & Gs & _). destruct A3 as (B1 & B2 & B3).
      split_and!; [now rewrite Ga|exact (get_code_ro _ _ _ _ _ G B2)|now rewrite Gs]. }
  unfold enter. destruct (m_kind m); assumption.
Qed.

Lemma leave_ro w h top f s out : w_ro w = true -> all_ro h -> all_ro (leave w h top f s out).
Proof.
  intros Hro A. unfold leave. rewrite Hro. cbn [negb].
  assert (Tp : forall h1, all_ro h1 -> all_ro (if top then set_success (set_out h1 out) (is_success s) else h1))
    by now destruct top.
  apply Tp. destruct (f_new f) as [x|]; [destruct (is_success s)|]; try exact A.
  destruct (get_account w h x false) as [m h1] eqn:E1.
  destruct (get_account_frame _ _ _ _ _ _ E1) as (Hc & Hs & _).
  match goal with |- context [get_account_code w ?H ?A ?B] =>
    destruct (get_account_code w H A B) as [q2 h6] eqn:G end.
  destruct (get_code_rest _ _ _ _ _ _ G) as (Ga & Gs & _). destruct A as (B1 & B2 & B3).
  split_and!; cbn.
  - rewrite Ga. cbn. apply ro_map_insert. exact (get_account_ro _ _ _ _ _ E1 B1).
  - apply ro_map_insert. apply (get_code_ro _ _ _ _ _ G). cbn. now rewrite Hc.
  - rewrite Gs. cbn. now rewrite Hs.
Qed.

Lemma step_ro w r e r' :
  w_ro w = true -> step w r e = Stepped r' -> all_ro (r_host r) -> all_ro (r_host r').
Proof.
  intros Hro E A. unfold step in E. destruct (r_stack r) as [|f rest]; [discriminate|].
  assert (W : forall o, with_host r o = Stepped r' -> (forall h1, o = Fine h1 -> all_ro h1) -> all_ro (r_host r')).
  { intros o. unfold with_host. destruct o as [h1|]; [|discriminate]. intros [= <-] K. now apply K. }
  assert (GA : forall a, all_ro (snd (get_account w (r_host r) a false))).
  { intros a. destruct (get_account w (r_host r) a false) as [m h1] eqn:E1.
    destruct (get_account_frame _ _ _ _ _ _ E1) as (Hc & Hs & _). destruct A as (B1 & B2 & B3).
    split_and!; [exact (get_account_ro _ _ _ _ _ E1 B1)|cbn; now rewrite Hc|cbn; now rewrite Hs]. }
  assert (GC : forall a, all_ro (snd (get_account_code w (r_host r) a false))).
  { intros a. destruct (get_account_code w (r_host r) a false) as [m h1] eqn:G.
    destruct (get_code_rest _ _ _ _ _ _ G) as (Ga & Gs & _). destruct A as (B1 & B2 & B3).
    split_and!; [cbn; now rewrite Ga|exact (get_code_ro _ _ _ _ _ G B2)|cbn; now rewrite Gs]. }
  destruct e as [x|x|x k|x k v|x|x|x|x b|l|m|s g out].
  - apply (W _ E). intros h1 [= <-]. apply GA.
  - apply (W _ E). intros h1 [= <-]. unfold get_balance. specialize (GA x).
    destruct (get_account w (r_host r) x false). exact GA.
  - apply (W _ E). intros h1 [= <-]. destruct (get_account_storage w (r_host r) (x, k) false) as [m h1] eqn:G.
    destruct (get_sto_rest _ _ _ _ _ _ G) as (Ga & Gs & _). destruct A as (B1 & B2 & B3).
    split_and!; [cbn; now rewrite Ga|cbn; now rewrite Gs|exact (get_sto_ro _ _ _ _ _ G B3)].
  - apply (W _ E). intros h1 T. destruct A as (B1 & B2 & B3).
    destruct (set_storage_ro _ _ _ _ _ _ Hro T B1 B3). destruct (set_storage_rest _ _ _ _ _ _ T) as (Tc & _).
    split_and!; auto. now rewrite Tc.
  - apply (W _ E). intros h1 [= <-]. unfold get_code_size. destruct (is_precompile x); [exact A|].
    specialize (GC x). destruct (get_account_code w (r_host r) x false). exact GC.
  - apply (W _ E). intros h1 [= <-]. apply GC.
  - apply (W _ E). intros h1 [= <-]. apply GC.
  - apply (W _ E). intros h1 T. unfold selfdestruct in T.
    destruct (transfer_rest _ _ _ _ _ _ T) as (Tc & Ts & _). destruct A as (B1 & B2 & B3).
    split_and!; [exact (transfer_ro _ _ _ _ _ _ Hro T B1)|now rewrite Tc|now rewrite Ts].
  - apply (W _ E). intros h1 [= <-]. exact A.
  - destruct (enter w (r_host r) false m) as [[h1 en]|] eqn:En; [|discriminate].
    assert (A1 := enter_ro _ _ _ _ _ _ Hro En A). destruct en; now injection E as <-.
  - assert (Eh : exists top, r_host r' = leave w (r_host r) top f s out).
    { destruct rest; injection E as <-; [exists true|exists false]; reflexivity. }
    destruct Eh as [top ->]. now apply leave_ro.
Qed.

Lemma steps_ro w es : forall r r',
  w_ro w = true -> steps w r es = Stepped r' -> all_ro (r_host r) -> all_ro (r_host r').
Proof.
  induction es as [|e es IH]; intros r r' Hro E A; cbn in E.
  - now injection E as <-.
  - destruct (step w r e) as [r1| |] eqn:E1; try discriminate.
    exact (IH r1 r' Hro E (step_ro _ _ _ _ Hro E1 A)).
Qed.

Lemma acc_ro_omap (m : gmap N (option acct * bool)) : ro_map m -> omap acc_update m = ∅.
Proof.
  intros Hm. apply map_eq. intros k. rewrite lookup_omap, lookup_empty.
  destruct (m !! k) as [[v f]|] eqn:E; [|reflexivity]. cbn. rewrite (Hm _ _ _ E). now destruct v.
Qed.

Theorem dry_run w locks from t es u :
  w_ro w = true -> execute w locks from t es = Some (Done u) ->
  u_acc u = ∅ /\ u_code u = ∅ /\ u_sto u = ∅.
Proof.
  intros Hro E. unfold execute in E.
  destruct (start w locks from t) as [| |[r| |]] eqn:St; try discriminate.
  destruct (steps w r es) as [r'| |] eqn:Ss; try discriminate.
  destruct (r_result r') as [[s g]|] eqn:Rs; [|discriminate]. injection E as E.
  assert (A0 : all_ro host0).
  { split_and!; intros k v f; cbn; rewrite lookup_empty; discriminate. }
  assert (A1 : all_ro (r_host r)).
  { unfold start in St. destruct locks as [[l1 l2] l3]. rewrite Hro in St. cbn [negb] in St.
    rewrite andb_false_r in St. injection St as St. unfold start_exec in St.
    destruct (enter w host0 true (make_message w from t)) as [[h1 en]|] eqn:En; [|discriminate].
    assert (A1 := enter_ro _ _ _ _ _ _ Hro En A0). destruct en; now injection St as <-. }
  assert (Hi0 : h_init (r_host r) = ∅).
  { unfold start in St. destruct locks as [[l1 l2] l3]. rewrite Hro in St. cbn [negb] in St.
    rewrite andb_false_r in St. injection St as St. unfold start_exec in St.
    destruct (enter w host0 true (make_message w from t)) as [[h1 en]|] eqn:En; [|discriminate].
    assert (Eh : r_host r = h1) by (destruct en; now injection St as <-). rewrite Eh. clear -En.
    assert (Hf : forall h x y z h2, transfer w h x y z = Fine h2 -> h_init h2 = h_init h).
    { intros h x y z h2. unfold transfer. destruct (get_account w h x (negb (w_ro w))) as [[acc|] h3] eqn:E1; [|discriminate].
      destruct (get_account_frame _ _ _ _ _ _ E1) as (_ & _ & ? & _).
      match goal with |- context [get_account w ?H ?A ?B] =>
        destruct (get_account w H A B) as [q2 h6] eqn:E2 end.
      destruct (get_account_frame _ _ _ _ _ _ E2) as (_ & _ & A3 & _). cbn in A3.
      intros [= <-]. cbn. congruence. }
    revert En. unfold enter, enter_create, enter_call.
    set (m := make_message w from t).
    destruct (m_kind m);
    repeat match goal with
    | |- context [get_account w ?H ?A ?B] =>
        let Q := fresh "Q" in destruct (get_account w H A B) as [[?|] ?] eqn:Q;
        apply get_account_frame in Q as (_ & _ & ? & _)
    | |- context [get_code_size w ?H ?A] =>
        let Q := fresh "Q" in destruct (get_code_size w H A) as [? ?] eqn:Q; apply get_size_frame in Q as (_ & _ & ? & _)
    | |- context [get_account_code w ?H ?A ?B] =>
        let Q := fresh "Q" in destruct (get_account_code w H A B) as [? ?] eqn:Q; apply get_code_frame in Q as (_ & _ & ? & _)
    | |- context [transfer w ?H ?A ?B ?C] =>
        let Q := fresh "Q" in destruct (transfer w H A B C) eqn:Q; [apply Hf in Q|]
    | |- context [m_value m =? 0] => destruct (m_value m =? 0); cbn [negb andb]
    | |- context [if ?b then _ else _] => destruct b
    end; intros X; try discriminate; injection X as <- _; cbn in *; congruence. }
  assert (A2 := steps_ro _ _ _ _ Hro Ss A1). destruct A2 as (B1 & B2 & B3).
  assert (Hi : h_init (r_host r') = ∅).
  { clear E Rs B1 B2 B3 A1 St. revert r Ss Hi0. induction es as [|e es IH]; intros r Ss Hi0; cbn in Ss.
    - now injection Ss as <-.
    - destruct (step w r e) as [r1| |] eqn:E1; try discriminate. apply (IH r1 Ss).
      rewrite <- Hi0. clear IH Ss Hi0.
      unfold step in E1. destruct (r_stack r) as [|f rest]; [discriminate|].
      assert (Hf : forall h x y z h2, transfer w h x y z = Fine h2 -> h_init h2 = h_init h).
      { intros h x y z h2. unfold transfer. destruct (get_account w h x (negb (w_ro w))) as [[acc|] h3] eqn:Q1; [|discriminate].
        destruct (get_account_frame _ _ _ _ _ _ Q1) as (_ & _ & ? & _).
        match goal with |- context [get_account w ?H ?A ?B] =>
          destruct (get_account w H A B) as [q2 h6] eqn:Q2 end.
        destruct (get_account_frame _ _ _ _ _ _ Q2) as (_ & _ & A3 & _). cbn in A3.
        intros [= <-]. cbn. congruence. }
      destruct e as [x|x|x k|x k v|x|x|x|x b|l|m|s0 g0 out]; cbn [with_host] in E1.
      + injection E1 as <-. cbn. destruct (get_account w (r_host r) x false) eqn:Q. now apply get_account_frame in Q as (_ & _ & ? & _).
      + injection E1 as <-. cbn. unfold get_balance. destruct (get_account w (r_host r) x false) eqn:Q.
        now apply get_account_frame in Q as (_ & _ & ? & _).
      + injection E1 as <-. cbn. destruct (get_account_storage w (r_host r) (x, k) false) eqn:Q.
        now apply get_sto_frame in Q as (_ & _ & ? & _).
      + destruct (set_storage w (r_host r) x k v) as [h1|] eqn:Q; [|discriminate]. injection E1 as <-. cbn.
        revert Q. unfold set_storage.
        destruct (get_account w (r_host r) x false) as [[acc|] h2] eqn:Q1;
          apply get_account_frame in Q1 as (_ & _ & ? & _).
        * match goal with |- context [get_account_storage w ?H ?A ?B] =>
            destruct (get_account_storage w H A B) as [q2 h6] eqn:Q2 end.
          apply get_sto_frame in Q2 as (_ & _ & Q2 & _). cbn in Q2. intros [= <-]. cbn. congruence.
        * rewrite Hro. cbn [negb]. rewrite andb_false_r.
          match goal with |- context [get_account_storage w ?H ?A ?B] =>
            destruct (get_account_storage w H A B) as [q2 h6] eqn:Q2 end.
          apply get_sto_frame in Q2 as (_ & _ & Q2 & _). cbn in Q2. intros [= <-]. cbn. congruence.
      + injection E1 as <-. cbn. destruct (get_code_size w (r_host r) x) eqn:Q. now apply get_size_frame in Q as (_ & _ & ? & _).
      + injection E1 as <-. cbn. destruct (get_account_code w (r_host r) x false) eqn:Q. now apply get_code_frame in Q as (_ & _ & ? & _).
      + injection E1 as <-. cbn. destruct (get_account_code w (r_host r) x false) eqn:Q. now apply get_code_frame in Q as (_ & _ & ? & _).
      + destruct (selfdestruct w (r_host r) x b) as [h1|] eqn:Q; [|discriminate]. injection E1 as <-. cbn. exact (Hf _ _ _ _ _ Q).
      + injection E1 as <-. reflexivity.
      + destruct (enter w (r_host r) false m) as [[h1 en]|] eqn:En; [|discriminate].
        assert (Eh : r_host r1 = h1) by (destruct en; now injection E1 as <-). rewrite Eh. clear -En Hf.
        revert En. unfold enter, enter_create, enter_call.
        destruct (m_kind m);
        repeat match goal with
        | |- context [get_account w ?H ?A ?B] =>
            let Q := fresh "Q" in destruct (get_account w H A B) as [[?|] ?] eqn:Q;
            apply get_account_frame in Q as (_ & _ & ? & _)
        | |- context [get_code_size w ?H ?A] =>
            let Q := fresh "Q" in destruct (get_code_size w H A) as [? ?] eqn:Q; apply get_size_frame in Q as (_ & _ & ? & _)
        | |- context [get_account_code w ?H ?A ?B] =>
            let Q := fresh "Q" in destruct (get_account_code w H A B) as [? ?] eqn:Q; apply get_code_frame in Q as (_ & _ & ? & _)
        | |- context [transfer w ?H ?A ?B ?C] =>
            let Q := fresh "Q" in destruct (transfer w H A B C) eqn:Q; [apply Hf in Q|]
        | |- context [m_value m =? 0] => destruct (m_value m =? 0); cbn [negb andb]
        | |- context [if ?b then _ else _] => destruct b
        end; intros X; try discriminate; injection X as <- _; cbn in *; congruence.
      + assert (Eh : exists top, r_host r1 = leave w (r_host r) top f s0 out).
        { destruct rest; injection E1 as <-; [exists true|exists false]; reflexivity. }
        destruct Eh as [top ->]. unfold leave.
        assert (Tp : forall h1, h_init (if top then set_success (set_out h1 out) (is_success s0) else h1) = h_init h1)
          by now destruct top.
        rewrite Tp. destruct (f_new f) as [x|]; [destruct (is_success s0)|]; try reflexivity.
        destruct (get_account w (r_host r) x (negb (w_ro w))) as [m h1] eqn:Q1.
        apply get_account_frame in Q1 as (_ & _ & Q1 & _).
        match goal with |- context [get_account_code w ?H ?A ?B] =>
          destruct (get_account_code w H A B) as [q2 h6] eqn:G end.
        apply get_code_frame in G as (_ & _ & G & _). cbn in G |- *. congruence. }
  unfold conclude in E. unfold finalize in E. rewrite Hro in E.
  assert (A0m : ro_map (h_init (r_host r'))) by (rewrite Hi; intros k v f; rewrite lookup_empty; discriminate).
  destruct s; try discriminate; destruct (h_retry (r_host r')); try discriminate;
    injection E as <-; cbn; split_and!;
    try (apply acc_ro_omap; assumption); try (apply ro_map_omap; assumption).
Qed.

(** ** Reverted or failed transactions without writes of storage or code *)
Definition calm (t : etx) (r : run) : Prop :=
  ro_map (h_code (r_host r)) /\ ro_map (h_sto (r_host r)) /\
  forall f l, r_stack r = l ++ [f] -> Forall (fun g => f_new g = None) l.

Lemma leave_calm w h top f s out :
  ro_map (h_code h) -> ro_map (h_sto h) -> (f_new f = None \/ is_success s = false) ->
  ro_map (h_code (leave w h top f s out)) /\ ro_map (h_sto (leave w h top f s out)).
Proof.
  intros H1 H2 H3. unfold leave.
  destruct H3 as [->| ->]; [|destruct (f_new f)]; destruct top; auto.
Qed.

Lemma enter_calm w h top m h1 en :
  enter w h top m = Fine (h1, en) -> ro_map (h_code h) -> ro_map (h_sto h) ->
  ro_map (h_code h1) /\ ro_map (h_sto h1) /\
  (m_kind m <> KCreate -> m_kind m <> KCreate2 -> forall f, en = Running f -> f_new f = None).
Proof.
  assert (Cr : enter_create w h top m = Fine (h1, en) -> ro_map (h_code h) -> ro_map (h_sto h) ->
    ro_map (h_code h1) /\ ro_map (h_sto h1)).
  { unfold enter_create. destruct (get_account w h (m_sender m) false) as [ms h2] eqn:E1.
    destruct (get_account_frame _ _ _ _ _ _ E1) as (Hc & Hs & _).
    intros E H2 H3. destruct ms as [s|]; [|injection E as <- _; now rewrite Hc, Hs].
    match type of E with context [if m_value m =? 0 then Fine h2 else ?T] =>
      destruct (if m_value m =? 0 then Fine h2 else T) as [h3|] eqn:T3 end; [|discriminate].
    assert (A3 : h_code h3 = h_code h2 /\ h_sto h3 = h_sto h2).
    { destruct (m_value m =? 0); [now injection T3 as <-|].
      now destruct (transfer_rest _ _ _ _ _ _ T3) as (Tc & Ts & _). }
    destruct A3 as [A3 A4]. injection E as <- _. rewrite <- Hc, <- A3 in H2. rewrite <- Hs, <- A4 in H3.
    destruct top; auto. }
  assert (Ca : enter_call w h m = Fine (h1, en) -> ro_map (h_code h) -> ro_map (h_sto h) ->
    ro_map (h_code h1) /\ ro_map (h_sto h1) /\ forall f, en = Running f -> f_new f = None).
  { unfold enter_call. set (native := _ && _).
    destruct (if native then transfer w h (m_sender m) (m_recipient m) (m_value m) else Fine h)
      as [h2|] eqn:T; [|discriminate].
    intros E H2 H3.
    assert (A3 : h_code h2 = h_code h /\ h_sto h2 = h_sto h).
    { destruct native; [|now injection T as <-].
      now destruct (transfer_rest _ _ _ _ _ _ T) as (Tc & Ts & _). }
    destruct A3 as [A3 A4]. rewrite <- A3 in H2. rewrite <- A4 in H3.
    revert E. match goal with |- context [get_code_size w h2 ?A] =>
      destruct (get_code_size w h2 A) as [size h3] eqn:Z; set (ca := A) in * end.
    destruct (get_size_rest _ _ _ _ _ Z) as (Za & Zs & _ & _ & _ & Zc).
    specialize (Zc H2). rewrite <- Zs in H3.
    destruct (Nat.eqb size 0).
    - intros [= <- <-]. split_and!; try (destruct native; assumption). discriminate.
    - destruct (get_account_code w h3 ca false) as [c h4] eqn:G. destruct (w_dbg w && _); [discriminate|].
      intros [= <- <-]. destruct (get_code_rest _ _ _ _ _ _ G) as (Ga & Gs & _).
      split_and!; [exact (get_code_ro _ _ _ _ _ G Zc)|now rewrite Gs|]. now intros f [= <-]. }
  unfold enter. intros E H1 H2.
  destruct (m_kind m); try (destruct (Ca E H1 H2) as (? & ? & ?); split_and!; auto; fail);
    destruct (Cr E H1 H2); split_and!; auto; intros; congruence.
Qed.

Lemma step_calm w t r e r' :
  calm t r -> writes_nothing e -> step w r e = Stepped r' ->
  (forall s g, r_result r' = Some (s, g) -> s <> Success) -> calm t r'.
Proof.
  intros (H1 & H2 & H3) Hw E Hr. unfold step in E. destruct (r_stack r) as [|f rest] eqn:St; [discriminate|].
  assert (W : forall o, with_host r o = Stepped r' ->
    (forall h1, o = Fine h1 -> ro_map (h_code h1) /\ ro_map (h_sto h1)) -> calm t r').
  { intros o. unfold with_host. destruct o as [h1|]; [|discriminate]. intros [= <-] K.
    destruct (K _ eq_refl) as [K1 K2]. split_and!; cbn; auto. rewrite St. exact H3. }
  assert (GC : forall a, ro_map (h_code (snd (get_account_code w (r_host r) a false))) /\
                         ro_map (h_sto (snd (get_account_code w (r_host r) a false)))).
  { intros a. destruct (get_account_code w (r_host r) a false) as [m h1] eqn:G.
    destruct (get_code_rest _ _ _ _ _ _ G) as (Ga & Gs & _).
    split; [exact (get_code_ro _ _ _ _ _ G H1)|cbn; now rewrite Gs]. }
  destruct e as [x|x|x k|x k v|x|x|x|x b|l|m|s g out].
  - apply (W _ E). intros h1 [= <-]. destruct (get_account w (r_host r) x false) as [m h1] eqn:E1.
    destruct (get_account_frame _ _ _ _ _ _ E1) as (Hc & Hs & _). cbn. now rewrite Hc, Hs.
  - apply (W _ E). intros h1 [= <-]. unfold get_balance. destruct (get_account w (r_host r) x false) as [m h1] eqn:E1.
    destruct (get_account_frame _ _ _ _ _ _ E1) as (Hc & Hs & _). cbn. now rewrite Hc, Hs.
  - apply (W _ E). intros h1 [= <-]. destruct (get_account_storage w (r_host r) (x, k) false) as [m h1] eqn:G.
    destruct (get_sto_rest _ _ _ _ _ _ G) as (Ga & Gs & _).
    split; [cbn; now rewrite Gs|exact (get_sto_ro _ _ _ _ _ G H2)].
  - destruct Hw.
  - apply (W _ E). intros h1 [= <-]. unfold get_code_size. destruct (is_precompile x); [auto|].
    specialize (GC x). destruct (get_account_code w (r_host r) x false). exact GC.
  - apply (W _ E). intros h1 [= <-]. apply GC.
  - apply (W _ E). intros h1 [= <-]. apply GC.
  - apply (W _ E). intros h1 T. unfold selfdestruct in T.
    destruct (transfer_rest _ _ _ _ _ _ T) as (Tc & Ts & _). now rewrite Tc, Ts.
  - apply (W _ E). intros h1 [= <-]. auto.
  - destruct (enter w (r_host r) false m) as [[h1 en]|] eqn:En; [|discriminate].
    destruct (enter_calm _ _ _ _ _ _ En H1 H2) as (K1 & K2 & K3). destruct Hw as [Hw1 Hw2].
    specialize (K3 Hw1 Hw2).
    destruct en as [s g|f1]; injection E as <-; split_and!; cbn; auto.
    intros f0 l Hl. destruct l as [|f2 l]; [discriminate|]. injection Hl as <- Hl.
    constructor; [now apply K3|]. exact (H3 _ _ Hl).
  - destruct rest as [|f2 rest].
    + assert (Q : r' = Run (leave w (r_host r) true f s out) [] (Some (s, g))) by congruence.
      rewrite Q in Hr |- *. specialize (Hr s g eq_refl).
      destruct (leave_calm w (r_host r) true f s out H1 H2) as [K1 K2].
      { right. now destruct s. }
      split_and!; auto. intros f0 l Hl. cbn in Hl. now destruct l.
    + assert (Q : r' = Run (leave w (r_host r) false f s out) (f2 :: rest) None) by congruence.
      rewrite Q.
      assert (Fn : f_new f = None).
      { destruct (exists_last (l := f2 :: rest)) as (l & f0 & Hl); [discriminate|].
        assert (Hx := H3 f0 (f :: l)). cbn in Hx. rewrite Hl in Hx. exact (Forall_inv (Hx eq_refl)). }
      destruct (leave_calm w (r_host r) false f s out H1 H2 (or_introl Fn)) as [K1 K2].
      split_and!; auto. cbn. intros f0 l Hl. assert (Hx := H3 f0 (f :: l)). cbn in Hx. rewrite Hl in Hx.
      exact (Forall_inv_tail (Hx eq_refl)).
Qed.

Lemma steps_end w es : forall r r',
  steps w r es = Stepped r' -> r_stack r = [] -> es = [] /\ r' = r.
Proof.
  intros r r' E St. destruct es as [|e es]; cbn in E.
  - now injection E as <-.
  - unfold step in E. rewrite St in E. discriminate.
Qed.

(** As long as code runs there is no result. *)
Definition busy (r : run) : Prop := r_stack r <> [] -> r_result r = None.

Lemma step_busy w r e r' : busy r -> step w r e = Stepped r' -> busy r'.
Proof.
  intros B E. unfold step in E. destruct (r_stack r) as [|f rest] eqn:St; [discriminate|].
  assert (B0 : r_result r = None) by (apply B; rewrite St; discriminate).
  assert (W : forall o, with_host r o = Stepped r' -> busy r').
  { intros o. unfold with_host. destruct o; [|discriminate]. intros [= <-] _. exact B0. }
  destruct e; try (apply (W _ E)).
  - destruct (enter w (r_host r) false m) as [[h1 en]|]; [|discriminate].
    destruct en; injection E as <-; intros _; reflexivity.
  - destruct rest; injection E as <-.
    + intros X. now destruct X.
    + intros _. reflexivity.
Qed.

Lemma steps_calm w t es : forall r r',
  calm t r -> busy r -> Forall writes_nothing es -> steps w r es = Stepped r' ->
  (forall s g, r_result r' = Some (s, g) -> s <> Success) -> calm t r'.
Proof.
  induction es as [|e es IH]; intros r r' C B Hw E Hr; cbn in E.
  - now injection E as <-.
  - destruct (step w r e) as [r1| |] eqn:E1; try discriminate.
    assert (B1 := step_busy _ _ _ _ B E1).
    apply (IH r1 r'); auto; [|exact (Forall_inv_tail Hw)].
    apply (step_calm w t r e r1 C (Forall_inv Hw) E1).
    intros s g Hs. destruct (r_stack r1) as [|f rest] eqn:St.
    + destruct (steps_end _ _ _ _ E St) as [_ ->]. exact (Hr _ _ Hs).
    + rewrite B1 in Hs by (rewrite St; discriminate). discriminate.
Qed.

Theorem failed_no_writes w locks from t es u s :
  w_ro w = false -> execute w locks from t es = Some (Done u) ->
  call_status w locks from t es = Some s -> s <> Success -> Forall writes_nothing es ->
  u_code u = ∅ /\ u_sto u = ∅.
Proof.
  intros Hro E Cs Hs Hw. unfold execute in E. unfold call_status in Cs.
  destruct (start w locks from t) as [| |[r| |]] eqn:St; try discriminate.
  destruct (steps w r es) as [r'| |] eqn:Ss; try discriminate.
  destruct (r_result r') as [[s' g]|] eqn:Rs; [|discriminate]. cbn in Cs. injection Cs as ->.
  injection E as E.
  destruct (start_real _ _ _ _ _ Hro St) as (_ & _ & _ & Es). symmetry in Es. unfold start_exec in Es.
  destruct (enter w (first_host w from t) true (make_message w from t)) as [[h1 en]|] eqn:En; [|discriminate].
  destruct (first_host_acc w from t Hro) as (_ & _ & _ & Ec & Eo).
  destruct (enter_calm _ _ _ _ _ _ En) as (K1 & K2 & _).
  { rewrite Ec. intros k v f. rewrite lookup_empty. discriminate. }
  { rewrite Eo. intros k v f. rewrite lookup_empty. discriminate. }
  assert (C : calm t r /\ busy r).
  { destruct en as [s0 g0|f]; injection Es as <-; split.
    - split_and!; auto. cbn. intros f l Hl. now destruct l.
    - intros X. now destruct X.
    - split_and!; auto. cbn. intros f0 l Hl. destruct l as [|? l]; [constructor|]. destruct l; discriminate.
    - intros _. reflexivity. }
  destruct C as [C B].
  destruct (steps_calm w t es r r' C B Hw Ss) as (R1 & R2 & _).
  { intros s1 g1 Q. rewrite Rs in Q. injection Q as <- _. exact Hs. }
  unfold conclude in E.
  assert (E' : exists h2, u = state_updates h2 /\ h_code h2 = h_code (r_host r') /\ h_sto h2 = h_sto (r_host r')).
  { assert (Fz : forall h0 g0 used, h_code h0 = h_code (r_host r') -> h_sto h0 = h_sto (r_host r') ->
      match finalize w h0 from (x_price t) g0 used with Dead => ProcessEnds | Fine h2 => Done (state_updates h2) end = Done u ->
      exists h2, u = state_updates h2 /\ h_code h2 = h_code (r_host r') /\ h_sto h2 = h_sto (r_host r')).
    { intros h0 g0 used Q1 Q2. unfold finalize. rewrite Hro.
      destruct (get_account w h0 from true) as [m h3] eqn:G.
      apply get_account_frame in G as (G1 & G2 & _).
      destruct m; [|discriminate]. intros [= <-]. eexists. split; [reflexivity|]. cbn. split; congruence. }
    destruct s; try discriminate; destruct (h_retry (r_host r')); try discriminate;
      apply (Fz _ _ _) in E; auto. }
  destruct E' as (h2 & -> & Q1 & Q2). cbn. rewrite Q1, Q2. split; now apply ro_map_omap.
Qed.
