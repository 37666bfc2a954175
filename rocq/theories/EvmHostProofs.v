(** Proofs about EVM transactions: sums over maps, the accounts as the host sees them, and
    the effect of each callback on them. *)
From Coq Require Import NArith List Bool Lia.
From stdpp Require Import gmap.
From Verif Require Import Base EvmHostModel EvmHostSpec.
Import ListNotations.
Open Scope N_scope.

(** * Sums *)
Section Sums.
  Context {A : Type} (f : A -> N).
  Definition sum (m : gmap N A) : N := map_fold (fun _ x s => f x + s) 0 m.
  Definition at_ (m : gmap N A) (k : N) : N := match m !! k with Some x => f x | None => 0 end.

  Lemma sum_empty : sum ∅ = 0.
  Proof. reflexivity. Qed.

  Lemma sum_fresh m k x : m !! k = None -> sum (<[k := x]> m) = f x + sum m.
  Proof.
    intros Hk. unfold sum. rewrite map_fold_insert_L; [reflexivity| |exact Hk].
    intros. lia.
  Qed.

  Lemma sum_delete m k : sum m = at_ m k + sum (delete k m).
  Proof.
    unfold at_. destruct (m !! k) as [x|] eqn:E.
    - rewrite <- (insert_delete m k x E) at 1. rewrite sum_fresh; [reflexivity|].
      apply lookup_delete.
    - rewrite delete_notin by exact E. reflexivity.
  Qed.

  Lemma sum_insert m k x : sum (<[k := x]> m) + at_ m k = f x + sum m.
  Proof.
    rewrite (sum_delete m k), <- insert_delete_insert, sum_fresh by apply lookup_delete. lia.
  Qed.

  Lemma at_insert m k x j : at_ (<[k := x]> m) j = if decide (j = k) then f x else at_ m j.
  Proof.
    unfold at_. destruct (decide (j = k)) as [->|Hn].
    - now rewrite lookup_insert.
    - now rewrite lookup_insert_ne by congruence.
  Qed.

  Lemma at_le_sum m k : at_ m k <= sum m.
  Proof. rewrite (sum_delete m k). lia. Qed.
End Sums.

Lemma sum_mono {A B} (f : A -> N) (g : B -> N) (m1 : gmap N A) : forall m2 : gmap N B,
  (forall k, at_ f m1 k <= at_ g m2 k) -> sum f m1 <= sum g m2.
Proof.
  induction m1 as [|k x m Hk IH] using map_ind; intros m2 Hle.
  - rewrite sum_empty. lia.
  - rewrite sum_fresh by exact Hk. rewrite (sum_delete g m2 k).
    specialize (IH (delete k m2)).
    assert (Hm : sum f m <= sum g (delete k m2)).
    { apply IH. intros j. specialize (Hle j). unfold at_ in *.
      destruct (decide (j = k)) as [->|Hn].
      - rewrite Hk. lia.
      - rewrite lookup_delete_ne by congruence.
        rewrite lookup_insert_ne in Hle by congruence. exact Hle. }
    specialize (Hle k). unfold at_ in Hle at 1. rewrite lookup_insert in Hle. lia.
Qed.

Lemma sum_eq {A B} (f : A -> N) (g : B -> N) (m1 : gmap N A) (m2 : gmap N B) :
  (forall k, at_ f m1 k = at_ g m2 k) -> sum f m1 = sum g m2.
Proof.
  intros H. apply N.le_antisymm; apply sum_mono; intros k; rewrite H; lia.
Qed.

(** * Words *)
Lemma two256_pos : 0 < two256.
Proof. reflexivity. Qed.
Lemma pow64_lt : 2 ^ 64 < two256.
Proof. reflexivity. Qed.
#[global] Opaque two256.

Lemma wsub_exact a b : b <= a -> a < two256 -> wsub a b = a - b.
Proof.
  intros H1 H2. unfold wsub. rewrite (N.mod_small b) by lia.
  replace (a + two256 - b) with (a - b + 1 * two256) by lia.
  rewrite N.mod_add by lia. apply N.mod_small. lia.
Qed.
Lemma wadd_le a b : wadd a b <= a + b.
Proof. apply N.mod_le. pose proof two256_pos. lia. Qed.
Lemma wadd_exact a b : a + b < two256 -> wadd a b = a + b.
Proof. intros. now apply N.mod_small. Qed.
Lemma wmul_le a b : wmul a b <= a * b.
Proof. apply N.mod_le. pose proof two256_pos. lia. Qed.
Lemma wmul_exact a b : a * b < two256 -> wmul a b = a * b.
Proof. intros. now apply N.mod_small. Qed.
Lemma wadd_lt a b : wadd a b < two256.
Proof. apply N.mod_lt. pose proof two256_pos. lia. Qed.
Lemma wsub_lt a b : wsub a b < two256.
Proof. apply N.mod_lt. pose proof two256_pos. lia. Qed.

(** * The accounts as a real run sees them *)

(** What is known of the account: the host's version when it is held for writing, else the
    stored one. *)
Definition seen (e : option (option acct * bool)) (s : option (N * N)) : option acct :=
  match e with
  | Some (Some x, true) => Some x
  | _ => match s with Some (b, n) => Some (Acct b n false) | None => None end
  end.

Definition view (w : world) (h : host) : gmap N acct :=
  merge (fun e s => seen e s) (h_acc h) (d_acc (w_db w)).

Lemma lookup_view w h a : view w h !! a = seen (h_acc h !! a) (d_acc (w_db w) !! a).
Proof.
  unfold view. rewrite lookup_merge. unfold diag_None.
  destruct (h_acc h !! a) as [[[x|] []]|] eqn:E1, (d_acc (w_db w) !! a) as [[b n]|] eqn:E2; reflexivity.
Qed.

(** Entries held for reading are those of the shards, and entries known to be absent are
    absent there. *)
Definition cache_ok (w : world) (m : gmap N (option acct * bool)) : Prop :=
  forall a, is_precompile a = false ->
    (forall x, m !! a = Some (Some x, false) -> stored_acc (w_db w) a = Some x) /\
    (forall f, m !! a = Some (None, f) -> stored_acc (w_db w) a = None).

Definition view_of (V : gmap N acct) (a : N) : option acct :=
  if is_precompile a then Some acct0 else V !! a.

(** ** Reading *)
Lemma ask_ok w h b h1 : ask w h = (b, h1) -> h_retry h1 = false ->
  b = true /\ h_acc h1 = h_acc h /\ h_code h1 = h_code h /\ h_sto h1 = h_sto h /\
  h_retry h = false /\ h_init h1 = h_init h.
Proof.
  unfold ask. intros E R. injection E as <- <-. cbn in *.
  apply orb_false_iff in R. destruct R as [R1 R2]. apply negb_false_iff in R2. split_and!; auto.
Qed.

Lemma get_account_retry w h a wr m h1 :
  get_account w h a wr = (m, h1) -> h_retry h1 = false -> h_retry h = false.
Proof.
  unfold get_account. destruct (is_precompile a).
  { intros [= _ <-]. auto. }
  assert (F : forall m' h', (let '(ok, h1) := ask w h in
      if ok then (stored_acc (w_db w) a, put_acc h1 a (stored_acc (w_db w) a) wr)
      else (None, h1)) = (m', h') -> h_retry h' = false -> h_retry h = false).
  { intros m' h'. destruct (ask w h) as [ok h2] eqn:E. destruct ok; intros [= _ <-] R;
    apply (ask_ok _ _ _ _ E R). }
  destruct (h_acc h !! a) as [[v held]|]; [destruct (held || negb wr)|]; try apply F.
  intros [= _ <-]. auto.
Qed.

Lemma stored_seen w a : seen None (d_acc (w_db w) !! a) = stored_acc (w_db w) a.
Proof. unfold seen, stored_acc. destruct (d_acc (w_db w) !! a) as [[b n]|]; reflexivity. Qed.

Lemma seen_weak w a e : (forall x, e <> Some (Some x, true)) ->
  seen e (d_acc (w_db w) !! a) = stored_acc (w_db w) a.
Proof.
  intros H. unfold seen, stored_acc. destruct e as [[[x|] []]|];
    destruct (d_acc (w_db w) !! a) as [[b n]|]; try reflexivity; now destruct (H x).
Qed.

Lemma get_account_view w h a wr m h1 :
  get_account w h a wr = (m, h1) -> h_retry h1 = false -> cache_ok w (h_acc h) ->
  view w h1 = view w h /\ cache_ok w (h_acc h1) /\ m = view_of (view w h) a /\
  h_code h1 = h_code h /\ h_sto h1 = h_sto h /\ h_init h1 = h_init h /\
  (is_precompile a = false -> wr = true -> h_acc h1 !! a = Some (m, true)) /\
  (is_precompile a = false -> exists f, h_acc h1 !! a = Some (m, f)) /\
  (is_precompile a = true -> h1 = h) /\
  (forall b, b <> a -> h_acc h1 !! b = h_acc h !! b).
Proof.
  unfold get_account, view_of. destruct (is_precompile a) eqn:P.
  { intros [= <- <-] R C. split_and!; auto; discriminate. }
  assert (F : forall m' h', (let '(ok, h1) := ask w h in
      if ok then (stored_acc (w_db w) a, put_acc h1 a (stored_acc (w_db w) a) wr)
      else (None, h1)) = (m', h') -> h_retry h' = false -> cache_ok w (h_acc h) ->
      (forall x, h_acc h !! a <> Some (Some x, true)) ->
      view w h' = view w h /\ cache_ok w (h_acc h') /\ m' = view w h !! a /\
      h_code h' = h_code h /\ h_sto h' = h_sto h /\ h_init h' = h_init h /\
      (false = false -> wr = true -> h_acc h' !! a = Some (m', true)) /\
      (false = false -> exists f, h_acc h' !! a = Some (m', f)) /\
      (false = true -> h' = h) /\
      (forall b, b <> a -> h_acc h' !! b = h_acc h !! b)).
  { intros m' h'. destruct (ask w h) as [ok h2] eqn:E. destruct ok; intros [= <- <-] R C Hno.
    - destruct (ask_ok _ _ _ _ E R) as (_ & Ea & Ec & Es & _ & Ei).
      assert (Hv : view w (put_acc h2 a (stored_acc (w_db w) a) wr) = view w h).
      { apply map_eq. intros b. rewrite !lookup_view. cbn. rewrite Ea.
        destruct (decide (b = a)) as [->|Hn].
        - rewrite lookup_insert. rewrite (seen_weak w a (h_acc h !! a)) by exact Hno.
          unfold seen, stored_acc. destruct (d_acc (w_db w) !! a) as [[x y]|]; destruct wr; reflexivity.
        - rewrite lookup_insert_ne by congruence. reflexivity. }
      split_and!.
      + exact Hv.
      + intros b Pb. cbn. rewrite Ea. destruct (decide (b = a)) as [->|Hn].
        * rewrite lookup_insert. split; intros y Ey; injection Ey; congruence.
        * rewrite lookup_insert_ne by congruence. apply C. exact Pb.
      + rewrite lookup_view. rewrite seen_weak by exact Hno. reflexivity.
      + exact Ec.
      + exact Es.
      + exact Ei.
      + intros _ ->. cbn. now rewrite lookup_insert.
      + intros _. exists wr. cbn. now rewrite lookup_insert.
      + discriminate.
      + intros b Hb. cbn. rewrite lookup_insert_ne by congruence. now rewrite Ea.
    - destruct (ask_ok _ _ _ _ E R) as [? _]. discriminate. }
  destruct (h_acc h !! a) as [[v held]|] eqn:Ea.
  - destruct held; cbn [orb negb].
    + intros [= <- <-] R C. split_and!; auto.
      * rewrite lookup_view, Ea. destruct v as [x|]; [reflexivity|].
        destruct (C a P) as [_ C2]. specialize (C2 _ Ea).
        rewrite (seen_weak w a) by congruence. congruence.
      * eauto.
    + destruct wr; cbn [orb negb].
      * intros E R C. apply (F m h1 E R C). congruence.
      * intros [= <- <-] R C. split_and!; auto; try discriminate.
        -- rewrite lookup_view, Ea. destruct (C a P) as [C1 C2].
           rewrite (seen_weak w a) by congruence.
           destruct v as [x|]; symmetry; [now apply C1|now apply (C2 false)].
        -- eauto.
  - intros E R C. apply (F m h1 E R C). congruence.
Qed.

Lemma get_code_frame w h a wr m h1 :
  get_account_code w h a wr = (m, h1) ->
  h_acc h1 = h_acc h /\ h_sto h1 = h_sto h /\ h_init h1 = h_init h /\
  (h_retry h1 = false -> h_retry h = false).
Proof.
  unfold get_account_code. destruct (is_precompile a).
  { intros [= _ <-]. auto. }
  assert (F : forall m' h', (let '(ok, h1) := ask w h in
      if ok then (d_code (w_db w) !! a, put_code h1 a (d_code (w_db w) !! a) wr)
      else (None, h1)) = (m', h') ->
      h_acc h' = h_acc h /\ h_sto h' = h_sto h /\ h_init h' = h_init h /\
      (h_retry h' = false -> h_retry h = false)).
  { intros m' h'. destruct (ask w h) as [ok h2] eqn:E. pose proof (ask_ok w h ok h2 E) as K.
    unfold ask in E. injection E as E1 E2. destruct ok; intros [= _ <-]; subst h2; cbn;
      split_and!; auto; intros R; apply (K R). }
  destruct (h_code h !! a) as [[v held]|]; [destruct (held || negb wr)|]; try apply F.
  intros [= _ <-]. auto.
Qed.

Lemma get_sto_frame w h k wr m h1 :
  get_account_storage w h k wr = (m, h1) ->
  h_acc h1 = h_acc h /\ h_code h1 = h_code h /\ h_init h1 = h_init h /\
  (h_retry h1 = false -> h_retry h = false).
Proof.
  unfold get_account_storage. destruct (is_precompile (fst k)).
  { intros [= _ <-]. auto. }
  assert (F : forall m' h', (let '(ok, h1) := ask w h in
      if ok then (d_sto (w_db w) !! k, put_sto h1 k (d_sto (w_db w) !! k) wr)
      else (None, h1)) = (m', h') ->
      h_acc h' = h_acc h /\ h_code h' = h_code h /\ h_init h' = h_init h /\
      (h_retry h' = false -> h_retry h = false)).
  { intros m' h'. destruct (ask w h) as [ok h2] eqn:E. pose proof (ask_ok w h ok h2 E) as K.
    unfold ask in E. injection E as E1 E2. destruct ok; intros [= _ <-]; subst h2; cbn;
      split_and!; auto; intros R; apply (K R). }
  destruct (h_sto h !! k) as [[v held]|]; [destruct (held || negb wr)|]; try apply F.
  intros [= _ <-]. auto.
Qed.

Lemma view_same_acc w h h' : h_acc h' = h_acc h -> view w h' = view w h.
Proof. intros E. unfold view. now rewrite E. Qed.

Lemma view_put w h a x : view w (put_acc h a (Some x) true) = <[a := x]> (view w h).
Proof.
  apply map_eq. intros b. rewrite lookup_view. cbn.
  destruct (decide (b = a)) as [->|Hn].
  - now rewrite !lookup_insert.
  - rewrite !lookup_insert_ne by congruence. now rewrite lookup_view.
Qed.

Lemma cache_put w m a x : cache_ok w m -> cache_ok w (<[a := (Some x, true)]> m).
Proof.
  intros C b Pb. destruct (decide (b = a)) as [->|Hn].
  - rewrite lookup_insert. split; intros; discriminate.
  - rewrite lookup_insert_ne by congruence. now apply C.
Qed.

(** ** The effects on the view *)
Definition vtransfer (V : gmap N acct) (from to value : N) : option (gmap N acct) :=
  match view_of V from with
  | None => None
  | Some acc =>
      let val := if value =? 0 then a_balance acc else value in
      let V1 := <[from := Acct (wsub (a_balance acc) val) (a_nonce acc)
                               (if value =? 0 then true else a_destruct acc)]> V in
      let to_acc := match view_of V1 to with Some x => x | None => acct0 end in
      Some (<[to := Acct (wadd (a_balance to_acc) val) (a_nonce to_acc) (a_destruct to_acc)]> V1)
  end.

Lemma transfer_view w h from to value h' :
  w_ro w = false -> transfer w h from to value = Fine h' -> h_retry h' = false ->
  cache_ok w (h_acc h) ->
  vtransfer (view w h) from to value = Some (view w h') /\ cache_ok w (h_acc h') /\
  h_retry h = false /\ h_code h' = h_code h /\ h_sto h' = h_sto h /\ h_init h' = h_init h.
Proof.
  intros Hro. unfold transfer, vtransfer. rewrite Hro. cbn [negb].
  destruct (get_account w h from true) as [m h1] eqn:E1.
  destruct m as [acc|]; [|discriminate].
  set (val := if value =? 0 then a_balance acc else value).
  set (acc' := Acct _ _ _).
  destruct (get_account w (put_acc h1 from (Some acc') true) to true) as [m2 h3] eqn:E2.
  intros [= <-] R C. cbn in R.
  assert (R2 := get_account_retry _ _ _ _ _ _ E2 R). cbn in R2.
  destruct (get_account_view _ _ _ _ _ _ E1 R2 C) as (Hv1 & C1 & Hm & Hc1 & Hs1 & Hi1 & _).
  assert (C1' : cache_ok w (h_acc (put_acc h1 from (Some acc') true))) by (cbn; now apply cache_put).
  destruct (get_account_view _ _ _ _ _ _ E2 R C1') as (Hv2 & C2 & Hm2 & Hc2 & Hs2 & Hi2 & _).
  rewrite view_put, Hv1 in Hv2, Hm2.
  split_and!.
  - rewrite <- Hm. fold val. fold acc'. rewrite view_put, Hv2, <- Hm2. reflexivity.
  - cbn. now apply cache_put.
  - exact (get_account_retry _ _ _ _ _ _ E1 R2).
  - cbn. now rewrite Hc2.
  - cbn. now rewrite Hs2.
  - cbn. now rewrite Hi2.
Qed.

(** An account is made where there is none. *)
Definition vmake (V V' : gmap N acct) (a : N) : Prop :=
  V' = V \/ (V' = <[a := acct0]> V /\ (V !! a = None \/ is_precompile a = true)).

Lemma put_back w h a acc f :
  cache_ok w (h_acc h) -> is_precompile a = false -> h_acc h !! a = Some (Some acc, f) ->
  put_acc h a (Some acc) f = h.
Proof.
  intros C P E. unfold put_acc. rewrite insert_id by exact E. now destruct h.
Qed.

Lemma set_storage_view w h a k v h' :
  w_ro w = false -> set_storage w h a k v = Fine h' -> h_retry h' = false ->
  cache_ok w (h_acc h) ->
  vmake (view w h) (view w h') a /\ cache_ok w (h_acc h') /\
  h_retry h = false /\ h_code h' = h_code h /\ h_init h' = h_init h.
Proof.
  intros Hro. unfold set_storage. rewrite Hro. cbn [negb].
  destruct (get_account w h a false) as [m h1] eqn:E1.
  destruct m as [acc|].
  - destruct (get_account_storage w h1 (a, k) true) as [u h4] eqn:E4.
    intros [= <-] R C. cbn in R.
    destruct (get_sto_frame _ _ _ _ _ _ E4) as (Fa & Fc & Fi & FR).
    assert (R1 := FR R).
    destruct (get_account_view _ _ _ _ _ _ E1 R1 C) as (Hv1 & C1 & Hm & Hc1 & Hs1 & Hi1 & _ & Hf & Hp & _).
    cbn [h_acc put_sto set_sto]. rewrite Fa. destruct (is_precompile a) eqn:P.
    + specialize (Hp eq_refl). subst h1. unfold view_of in Hm. rewrite P in Hm. injection Hm as ->.
      destruct (h_acc h !! a) as [[x f]|] eqn:Ea.
      * destruct f.
        -- split_and!; try congruence; try (cbn; congruence).
           ++ right. split; [|auto]. rewrite view_put. f_equal. apply view_same_acc. exact Fa.
           ++ cbn. rewrite Fa. now apply cache_put.
        -- split_and!; try congruence; try (cbn; congruence).
           ++ left. apply map_eq. intros b. rewrite !lookup_view. cbn. rewrite Fa.
              destruct (decide (b = a)) as [->|Hn].
              ** rewrite lookup_insert, Ea. unfold seen. now destruct x.
              ** now rewrite lookup_insert_ne by congruence.
           ++ intros b Pb. destruct (decide (b = a)) as [->|Hn]; [congruence|].
              cbn. rewrite Fa. rewrite lookup_insert_ne by congruence. now apply C.
      * split_and!; try congruence; try (cbn; congruence).
        ++ left. apply map_eq. intros b. rewrite !lookup_view. cbn. rewrite Fa.
           destruct (decide (b = a)) as [->|Hn].
           ** rewrite lookup_insert, Ea. reflexivity.
           ** now rewrite lookup_insert_ne by congruence.
        ++ intros b Pb. destruct (decide (b = a)) as [->|Hn]; [congruence|].
           cbn. rewrite Fa. rewrite lookup_insert_ne by congruence. now apply C.
    + destruct (Hf eq_refl) as [f Hf']. rewrite Hf'. unfold put_acc. cbn [h_acc put_sto set_sto]. rewrite Fa. rewrite insert_id by exact Hf'.
      split_and!; try congruence; try (cbn; congruence).
      * left. rewrite <- Hv1. apply view_same_acc. reflexivity.
      * cbn. exact C1.
      * exact (get_account_retry _ _ _ _ _ _ E1 R1).
  - destruct (get_account w h1 a true) as [m2 h2] eqn:E2.
    destruct (w_dbg w && _); [discriminate|].
    destruct (get_account_storage w (put_acc h2 a (Some acct0) true) (a, k) true) as [u h4] eqn:E4.
    intros [= <-] R C. cbn in R.
    destruct (get_sto_frame _ _ _ _ _ _ E4) as (Fa & Fc & Fi & FR).
    assert (R2 := FR R). cbn in R2.
    assert (R1 := get_account_retry _ _ _ _ _ _ E2 R2).
    destruct (get_account_view _ _ _ _ _ _ E1 R1 C) as (Hv1 & C1 & Hm & Hc1 & Hs1 & Hi1 & _).
    destruct (get_account_view _ _ _ _ _ _ E2 R2 C1) as (Hv2 & C2 & Hm2 & Hc2 & Hs2 & Hi2 & _).
    cbn. rewrite Fa. cbn. rewrite lookup_insert, insert_insert.
    unfold view_of in Hm. destruct (is_precompile a) eqn:P; [discriminate|].
    cbn in Fc, Fi. split_and!; try congruence; try (cbn; congruence).
    + right. split; [|left; congruence]. rewrite <- Hv1, <- Hv2, <- view_put.
      reflexivity.
    + now apply cache_put.
    + exact (get_account_retry _ _ _ _ _ _ E1 R1).
Qed.

Lemma get_size_frame w h a n h1 :
  get_code_size w h a = (n, h1) ->
  h_acc h1 = h_acc h /\ h_sto h1 = h_sto h /\ h_init h1 = h_init h /\
  (h_retry h1 = false -> h_retry h = false).
Proof.
  unfold get_code_size. destruct (is_precompile a); [intros [= _ <-]; auto|].
  destruct (get_account_code w h a false) as [m h2] eqn:E. intros [= _ <-].
  exact (get_code_frame _ _ _ _ _ _ E).
Qed.

Lemma get_balance_view w h a b h1 :
  get_balance w h a = (b, h1) -> h_retry h1 = false -> cache_ok w (h_acc h) ->
  b = match view_of (view w h) a with Some x => a_balance x | None => 0 end.
Proof.
  unfold get_balance. destruct (get_account w h a false) as [m h2] eqn:E. intros [= <- <-] R C.
  destruct (get_account_view _ _ _ _ _ _ E R C) as (_ & _ & <- & _). reflexivity.
Qed.

(** What a run that is not wounded keeps true. *)
Definition good (w : world) (h : host) : Prop := h_retry h = false -> cache_ok w (h_acc h).

(** What an event does to the accounts. *)
Definition new_of (w : world) (m : msg) (sender : acct) : N :=
  match m_kind m with
  | KCreate => w_caddr w (m_sender m) (a_nonce sender)
  | _ => w_caddr2 w (m_sender m) (m_salt m) (m_input m)
  end.

Definition is_create (m : msg) : bool := match m_kind m with KCreate | KCreate2 => true | _ => false end.
Definition is_call (m : msg) : bool := match m_kind m with KCall => true | _ => false end.

(** Entering: [None] is a creation without a sender. *)
Definition venter (w : world) (V : gmap N acct) (m : msg) (V' : gmap N acct) : Prop :=
  if is_create m then
    match view_of V (m_sender m) with
    | None => V' = V
    | Some s =>
        if m_value m =? 0 then V' = V
        else vtransfer V (m_sender m) (new_of w m s) (m_value m) = Some V'
    end
  else if is_call m && negb (m_value m =? 0)
  then vtransfer V (m_sender m) (m_recipient m) (m_value m) = Some V'
  else V' = V.

Lemma enter_view w h top m h' e :
  w_ro w = false -> enter w h top m = Fine (h', e) -> h_retry h' = false -> cache_ok w (h_acc h) ->
  venter w (view w h) m (view w h') /\ cache_ok w (h_acc h') /\ h_retry h = false /\
  h_init h' = h_init h /\ h_sto h' = h_sto h /\
  (is_create m = true ->
     h_code h' = h_code h /\
     match view_of (view w h) (m_sender m) with
     | None => e = Returned Revert 0
     | Some s => e = Running (Frame (Some (new_of w m s)) (new_of w m s) (m_gas m))
     end) /\
  (is_create m = false ->
     e = Returned Success (m_gas m) \/ e = Running (Frame None (m_recipient m) (m_gas m))).
Proof.
  intros Hro. unfold enter, venter.
  assert (EC : is_create m = true -> enter w h top m = enter_create w h top m).
  { unfold enter, is_create. now destruct (m_kind m). }
  assert (EN : is_create m = false -> enter w h top m = enter_call w h m).
  { unfold enter, is_create. now destruct (m_kind m). }
  unfold enter in EC, EN. destruct (is_create m) eqn:K.
  - rewrite EC by reflexivity. clear EC EN. unfold enter_create.
    destruct (get_account w h (m_sender m) false) as [ms h1] eqn:E1.
    destruct ms as [s|].
    + fold (new_of w m s).
      destruct (m_value m =? 0) eqn:Z.
      * intros E R C. injection E as <- <-.
        assert (R1 : h_retry h1 = false) by (destruct top; exact R).
        destruct (get_account_view _ _ _ _ _ _ E1 R1 C) as (Hv & C1 & <- & Hc & Hs & Hi & _).
        assert (Ha : h_acc (if top then set_create h1 (Some (new_of w m s)) else h1) = h_acc h1)
          by now destruct top.
        split_and!.
        -- rewrite <- Hv. now apply view_same_acc.
        -- now rewrite Ha.
        -- exact (get_account_retry _ _ _ _ _ _ E1 R1).
        -- destruct top; exact Hi.
        -- destruct top; exact Hs.
        -- intros _. split; [destruct top; exact Hc|reflexivity].
        -- discriminate.
      * destruct (transfer w h1 (m_sender m) (new_of w m s) (m_value m)) as [h2|] eqn:E2; [|discriminate].
        intros E R C. injection E as <- <-.
        assert (R2 : h_retry h2 = false) by (destruct top; exact R).
        assert (R1 : h_retry h1 = false).
        { unfold transfer in E2. rewrite Hro in E2. cbn [negb] in E2.
          destruct (get_account w h1 (m_sender m) true) as [q h5] eqn:Q.
          destruct q; [|discriminate].
          match type of E2 with context [get_account w ?H ?A true] =>
            destruct (get_account w H A true) as [q2 h6] eqn:Q2 end.
          injection E2 as <-. cbn in R2.
          exact (get_account_retry _ _ _ _ _ _ Q (get_account_retry _ _ _ _ _ _ Q2 R2)). }
        destruct (get_account_view _ _ _ _ _ _ E1 R1 C) as (Hv & C1 & <- & Hc & Hs & Hi & _).
        destruct (transfer_view _ _ _ _ _ _ Hro E2 R2 C1) as (T & C2 & _ & Hc2 & Hs2 & Hi2).
        assert (Ha : h_acc (if top then set_create h2 (Some (new_of w m s)) else h2) = h_acc h2)
          by now destruct top.
        split_and!.
        -- rewrite <- Hv, T. f_equal. symmetry. now apply view_same_acc.
        -- now rewrite Ha.
        -- exact (get_account_retry _ _ _ _ _ _ E1 R1).
        -- destruct top; cbn; congruence.
        -- destruct top; cbn; congruence.
        -- intros _. split; [destruct top; cbn; congruence|reflexivity].
        -- discriminate.
    + intros E R C. injection E as <- <-.
      destruct (get_account_view _ _ _ _ _ _ E1 R C) as (Hv & C1 & <- & Hc & Hs & Hi & _).
      split_and!; auto; try discriminate. exact (get_account_retry _ _ _ _ _ _ E1 R).
  - rewrite EN by reflexivity. clear EC EN. unfold enter_call, is_call.
    set (native := _ && match m_kind m with KCall => true | _ => false end).
    assert (Hn : match m_kind m with KCall => true | _ => false end && negb (m_value m =? 0) = native)
      by apply andb_comm.
    rewrite Hn. clearbody native. clear Hn.
    destruct (if native then transfer w h (m_sender m) (m_recipient m) (m_value m) else Fine h)
      as [h1|] eqn:E1; [|discriminate].
    set (ca := match m_kind m with KDelegateCall | KCallCode => m_code m | _ => m_recipient m end).
    destruct (get_code_size w h1 ca) as [size h2] eqn:E2.
    destruct (get_size_frame _ _ _ _ _ E2) as (Fa & Fs & Fi & FR).
    assert (Fin : forall h3, h_acc h3 = h_acc h2 -> h_sto h3 = h_sto h2 -> h_init h3 = h_init h2 ->
      (h_retry h3 = false -> h_retry h2 = false) -> h_retry h3 = false -> cache_ok w (h_acc h) ->
      (if native then vtransfer (view w h) (m_sender m) (m_recipient m) (m_value m) = Some (view w h3)
       else view w h3 = view w h) /\
      cache_ok w (h_acc h3) /\ h_retry h = false /\ h_init h3 = h_init h /\ h_sto h3 = h_sto h).
    { intros h3 A3 S3 I3 R3 R C. assert (R1 := FR (R3 R)).
      destruct native.
      - destruct (transfer_view _ _ _ _ _ _ Hro E1 R1 C) as (T & C2 & Rh & Hc2 & Hs2 & Hi2).
        split_and!; try congruence.
        + rewrite T. f_equal. symmetry. apply view_same_acc. congruence.
        + now rewrite A3, Fa.
      - injection E1 as <-. split_and!; try congruence.
        + apply view_same_acc. congruence.
        + now rewrite A3, Fa. }
    destruct (Nat.eqb size 0).
    + intros E R C. injection E as <- <-.
      destruct (Fin (if native then set_success h2 true else h2)) as (F1 & F2 & F3 & F4 & F5);
        try (destruct native; cbn; auto; fail); auto.
      split_and!; auto; discriminate.
    + destruct (get_account_code w h2 ca false) as [c h3] eqn:E3.
      destruct (get_code_frame _ _ _ _ _ _ E3) as (Ga & Gs & Gi & GR).
      destruct (w_dbg w && _); [discriminate|].
      intros E R C. injection E as <- <-.
      destruct (Fin h3) as (F1 & F2 & F3 & F4 & F5); auto.
      split_and!; auto; discriminate.
Qed.

Lemma leave_view w h top f s out :
  w_ro w = false -> h_retry (leave w h top f s out) = false -> cache_ok w (h_acc h) ->
  match f_new f with
  | Some a => vmake (view w h) (view w (leave w h top f s out)) a
  | None => view w (leave w h top f s out) = view w h
  end /\
  cache_ok w (h_acc (leave w h top f s out)) /\ h_retry h = false /\
  h_init (leave w h top f s out) = h_init h /\ h_sto (leave w h top f s out) = h_sto h /\
  match f_new f, is_success s with
  | Some a, true => exists c, h_code (leave w h top f s out) = <[a := (Some out, true)]> c /\
                              (forall b, b <> a -> c !! b = h_code h !! b)
  | _, _ => h_code (leave w h top f s out) = h_code h
  end.
Proof.
  intros Hro. unfold leave. rewrite Hro. cbn [negb].
  assert (Top : forall h1, h_acc (if top then set_success (set_out h1 out) (is_success s) else h1) = h_acc h1 /\
     h_retry (if top then set_success (set_out h1 out) (is_success s) else h1) = h_retry h1 /\
     h_init (if top then set_success (set_out h1 out) (is_success s) else h1) = h_init h1 /\
     h_sto (if top then set_success (set_out h1 out) (is_success s) else h1) = h_sto h1 /\
     h_code (if top then set_success (set_out h1 out) (is_success s) else h1) = h_code h1).
  { intros h1. destruct top; auto. }
  destruct (f_new f) as [a|] eqn:Ef; [destruct (is_success s)|].
  - destruct (get_account w h a true) as [m h1] eqn:E1.
    set (acc := match m with Some x => x | None => acct0 end).
    destruct (get_account_code w (put_acc h1 a (Some acc) true) a true) as [c h3] eqn:E3.
    intros R C. destruct (Top (put_code h3 a (Some out) true)) as (Ta & Tr & Ti & Ts & Tc).
    rewrite Tr in R. cbn in R.
    destruct (get_code_frame _ _ _ _ _ _ E3) as (Ga & Gs & Gi & GR).
    assert (R1 := GR R). cbn in R1.
    destruct (get_account_view _ _ _ _ _ _ E1 R1 C) as (Hv & C1 & Hm & Hc & Hs & Hi & Hw & _ & Hp & _).
    set (hl := if top then _ else _) in *. clearbody hl.
    rewrite Ta, Ti, Ts, Tc. cbn [h_acc h_init h_sto h_code put_code set_code].
    rewrite Ga, Gs, Gi. cbn [h_acc h_init h_sto put_acc set_acc].
    split_and!; auto.
    + assert (Hl : view w hl = view w (put_acc h1 a (Some acc) true)).
      { apply view_same_acc. rewrite Ta. exact Ga. }
      rewrite Hl, view_put, Hv. unfold view_of in Hm. unfold vmake.
      destruct (is_precompile a) eqn:P.
      * right. subst acc. rewrite Hm. auto.
      * subst acc. destruct m as [x|].
        -- left. now apply insert_id.
        -- right. auto.
    + now apply cache_put.
    + exact (get_account_retry _ _ _ _ _ _ E1 R1).
    + eexists. split; [reflexivity|]. intros b Hb.
      unfold get_account_code in E3. destruct (is_precompile a).
      { injection E3 as <- <-. cbn. now rewrite Hc. }
      cbn [h_code put_acc set_acc] in E3.
      destruct (h_code h1 !! a) as [[v held]|]; [destruct (held || negb true)|].
      * injection E3 as <- <-. cbn. now rewrite Hc.
      * destruct (ask w (put_acc h1 a (Some acc) true)) as [ok h5] eqn:Q.
        unfold ask in Q. injection Q as Q1 Q2.
        destruct ok; injection E3 as <- <-; subst h5; cbn;
          rewrite ?lookup_insert_ne by congruence; now rewrite Hc.
      * destruct (ask w (put_acc h1 a (Some acc) true)) as [ok h5] eqn:Q.
        unfold ask in Q. injection Q as Q1 Q2.
        destruct ok; injection E3 as <- <-; subst h5; cbn;
          rewrite ?lookup_insert_ne by congruence; now rewrite Hc.
  - intros R C. destruct (Top h) as (Ta & Tr & Ti & Ts & Tc).
    set (hl := if top then _ else _) in *. clearbody hl.
    rewrite Ta, Ti, Ts, Tc. split_and!; auto; try congruence.
    left. now apply view_same_acc.
  - intros R C. destruct (Top h) as (Ta & Tr & Ti & Ts & Tc).
    set (hl := if top then _ else _) in *. clearbody hl.
    rewrite Ta, Ti, Ts, Tc. split_and!; auto; try congruence.
    now apply view_same_acc.
Qed.
