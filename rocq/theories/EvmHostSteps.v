(** Proofs about EVM transactions: what one callback does to the accounts, to the sum of
    their balances and to the accounts no code runs as. *)
From Coq Require Import NArith List Bool Lia.
From stdpp Require Import gmap.
From Verif Require Import Base EvmHostModel EvmHostSpec EvmHostProofs.
Import ListNotations.
Open Scope N_scope.

Notation tot := (sum a_balance).
Notation bal_at := (at_ a_balance).

(** The accounts in a view: 256-bit numbers. *)
Definition view_ok (V : gmap N acct) : Prop :=
  forall a x, V !! a = Some x -> a_balance x < two256 /\ a_nonce x < two256.
Definition intact (V : gmap N acct) : Prop := forall a x, V !! a = Some x -> a_destruct x = false.

Lemma view_ok_insert V a x :
  view_ok V -> a_balance x < two256 -> a_nonce x < two256 -> view_ok (<[a := x]> V).
Proof.
  intros H H1 H2 b y. destruct (decide (b = a)) as [->|Hn].
  - rewrite lookup_insert. intros [= <-]. auto.
  - rewrite lookup_insert_ne by congruence. apply H.
Qed.
Lemma intact_insert V a x : intact V -> a_destruct x = false -> intact (<[a := x]> V).
Proof.
  intros H H1 b y. destruct (decide (b = a)) as [->|Hn].
  - rewrite lookup_insert. intros [= <-]. auto.
  - rewrite lookup_insert_ne by congruence. apply H.
Qed.

Lemma view_of_ok V a x : view_ok V -> view_of V a = Some x -> a_balance x < two256 /\ a_nonce x < two256.
Proof.
  intros H. unfold view_of. destruct (is_precompile a); [|apply H].
  intros [= <-]. pose proof two256_pos. cbn. auto.
Qed.

(** ** Transfers *)
Lemma vtransfer_sum V from to value V' :
  vtransfer V from to value = Some V' -> view_ok V ->
  (value = 0 \/ exists x, view_of V from = Some x /\ value <= a_balance x) ->
  tot V' <= tot V /\ view_ok V' /\
  (value <> 0 -> is_precompile to = false -> tot V < two256 -> tot V' = tot V) /\
  (value <> 0 -> intact V -> intact V').
Proof.
  intros E Hok Hval. unfold vtransfer in E.
  destruct (view_of V from) as [acc|] eqn:Ef; [|discriminate].
  destruct (view_of_ok _ _ _ Hok Ef) as [Hb Hn].
  set (val := if value =? 0 then a_balance acc else value) in *.
  assert (Hv : val <= a_balance acc).
  { unfold val. destruct (value =? 0) eqn:Z; [lia|]. apply N.eqb_neq in Z.
    destruct Hval as [?|(x & Hx & Hle)]; [contradiction|]. congruence. }
  set (acc' := Acct (wsub (a_balance acc) val) (a_nonce acc) _) in *.
  set (V1 := <[from := acc']> V) in *.
  assert (Hok1 : view_ok V1).
  { apply view_ok_insert; [exact Hok|apply wsub_lt|exact Hn]. }
  assert (S1 : tot V1 + val <= tot V /\ (is_precompile from = false -> tot V1 + val = tot V)).
  { pose proof (sum_insert a_balance V from acc') as S. fold V1 in S.
    assert (Hacc' : a_balance acc' = a_balance acc - val) by (apply wsub_exact; assumption).
    rewrite Hacc' in S. pose proof (at_le_sum a_balance V from) as L.
    unfold view_of in Ef. destruct (is_precompile from) eqn:P.
    - injection Ef as <-. cbn in S, Hv. split; [lia|discriminate].
    - unfold at_ in S, L. rewrite Ef in S, L. lia. }
  destruct S1 as [S1 S1e].
  injection E as <-.
  set (to_acc := match view_of V1 to with Some x => x | None => acct0 end).
  assert (Hto : a_balance to_acc < two256 /\ a_nonce to_acc < two256).
  { unfold to_acc. destruct (view_of V1 to) eqn:Et.
    - exact (view_of_ok _ _ _ Hok1 Et).
    - pose proof two256_pos. cbn. auto. }
  assert (Hbt : a_balance to_acc <= bal_at V1 to /\ (is_precompile to = false -> a_balance to_acc = bal_at V1 to)).
  { unfold to_acc, view_of, at_. destruct (is_precompile to).
    - cbn. split; [lia|discriminate].
    - destruct (V1 !! to); cbn; auto using N.le_refl. }
  pose proof (sum_insert a_balance V1 to (Acct (wadd (a_balance to_acc) val) (a_nonce to_acc) (a_destruct to_acc))) as S2.
  cbn [a_balance] in S2. pose proof (wadd_le (a_balance to_acc) val) as W.
  split_and!.
  - lia.
  - apply view_ok_insert; [exact Hok1|apply wadd_lt|apply Hto].
  - intros Hz Pt Ht.
    assert (Pf : is_precompile from = false).
    { destruct (is_precompile from) eqn:P; [|reflexivity]. unfold view_of in Ef. rewrite P in Ef.
      injection Ef as <-. unfold val in Hv. apply N.eqb_neq in Hz. rewrite Hz in Hv. cbn in Hv.
      apply N.eqb_neq in Hz. lia. }
    specialize (S1e Pf). destruct Hbt as [_ Hbt]. specialize (Hbt Pt).
    pose proof (at_le_sum a_balance V1 to) as L.
    assert (Hs : a_balance to_acc + val < two256) by (rewrite Hbt; lia).
    pose proof (wadd_exact _ _ Hs). lia.
  - intros Hz I.
    assert (Ia : a_destruct acc = false).
    { unfold view_of in Ef. destruct (is_precompile from); [now injection Ef as <-|exact (I _ _ Ef)]. }
    apply N.eqb_neq in Hz.
    assert (I1 : intact V1).
    { apply intact_insert; [exact I|]. unfold acc'. rewrite Hz. exact Ia. }
    apply intact_insert; [exact I1|]. cbn. unfold to_acc, view_of.
    destruct (is_precompile to); [reflexivity|]. destruct (V1 !! to) eqn:Et; [exact (I1 _ _ Et)|reflexivity].
Qed.

(** The account at an address, none being the same as an empty one. *)
Definition acc_at (V : gmap N acct) (a : N) : acct := match V !! a with Some x => x | None => acct0 end.

Lemma acc_at_insert V k x a : acc_at (<[k := x]> V) a = if decide (a = k) then x else acc_at V a.
Proof.
  unfold acc_at. destruct (decide (a = k)) as [->|Hn].
  - now rewrite lookup_insert.
  - now rewrite lookup_insert_ne by congruence.
Qed.

Lemma acc_at_view_of V a : is_precompile a = false ->
  match view_of V a with Some x => x | None => acct0 end = acc_at V a.
Proof. intros P. unfold view_of, acc_at. now rewrite P. Qed.

(** [B] at least what [A] is, with the same nonce and fate. *)
Definition no_worse (A B : acct) : Prop :=
  a_nonce B = a_nonce A /\ a_destruct B = a_destruct A /\ a_balance A <= a_balance B.

Lemma no_worse_refl A : no_worse A A.
Proof. unfold no_worse. auto using N.le_refl. Qed.
Lemma no_worse_trans A B C : no_worse A B -> no_worse B C -> no_worse A C.
Proof. unfold no_worse. intros (H1 & H2 & H3) (H4 & H5 & H6). split_and!; try congruence. lia. Qed.

(** The same nonce and fate. *)
Definition same_nonce (A B : acct) : Prop := a_nonce B = a_nonce A /\ a_destruct B = a_destruct A.

Lemma vtransfer_other V from to value V' a :
  vtransfer V from to value = Some V' -> view_ok V -> is_precompile a = false -> a <> from ->
  (value = 0 \/ exists x, view_of V from = Some x /\ value <= a_balance x) ->
  same_nonce (acc_at V a) (acc_at V' a) /\
  (tot V < two256 -> no_worse (acc_at V a) (acc_at V' a)).
Proof.
  intros E Hok Pa Ha Hval.
  unfold vtransfer in E.
  destruct (view_of V from) as [acc|] eqn:Ef; [|discriminate].
  destruct (view_of_ok _ _ _ Hok Ef) as [Hb Hn].
  set (val := if value =? 0 then a_balance acc else value) in *.
  assert (Hv : val <= a_balance acc).
  { unfold val. destruct (value =? 0) eqn:Z; [lia|]. apply N.eqb_neq in Z.
    destruct Hval as [?|(x & Hx & Hle)]; [contradiction|]. congruence. }
  set (acc' := Acct (wsub (a_balance acc) val) (a_nonce acc) _) in *.
  set (V1 := <[from := acc']> V) in *. injection E as <-.
  assert (Hacc' : a_balance acc' = a_balance acc - val) by (apply wsub_exact; assumption).
  rewrite acc_at_insert. destruct (decide (a = to)) as [<-|Hna].
  - assert (EA : match view_of V1 a with Some x => x | None => acct0 end = acc_at V a).
    { rewrite acc_at_view_of by exact Pa. unfold V1. rewrite acc_at_insert.
      now destruct (decide (a = from)). }
    rewrite EA. split; [split; reflexivity|]. intros Ht. split_and!; try reflexivity. cbn.
    assert (L : bal_at V1 a + val <= tot V).
    { pose proof (sum_insert a_balance V from acc') as S. fold V1 in S. rewrite Hacc' in S.
      pose proof (at_le_sum a_balance V1 a) as L. pose proof (at_le_sum a_balance V from) as L2.
      unfold view_of in Ef. destruct (is_precompile from) eqn:P.
      - injection Ef as <-. cbn in Hv, S. lia.
      - unfold at_ in S, L2. rewrite Ef in S, L2. unfold at_ in L |- *. lia. }
    assert (Eb : bal_at V1 a = a_balance (acc_at V a)).
    { unfold at_, acc_at, V1. rewrite lookup_insert_ne by congruence. now destruct (V !! a). }
    rewrite wadd_exact by lia. lia.
  - unfold V1. rewrite acc_at_insert. destruct (decide (a = from)); [contradiction|].
    split; [split; reflexivity|]. intros _. apply no_worse_refl.
Qed.

Lemma vtransfer_from V from to value V' :
  vtransfer V from to value = Some V' -> view_ok V -> is_precompile from = false -> value <> 0 ->
  value <= a_balance (acc_at V from) ->
  same_nonce (acc_at V from) (acc_at V' from) /\
  (tot V < two256 -> a_balance (acc_at V from) <= a_balance (acc_at V' from) + value).
Proof.
  intros E Hok Pf Hz Hval.
  unfold vtransfer, view_of in E. rewrite Pf in E.
  unfold acc_at in *. destruct (V !! from) as [acc|] eqn:Ef; [|discriminate].
  destruct (Hok _ _ Ef) as [Hb Hn].
  apply N.eqb_neq in Hz. rewrite Hz in E. injection E as <-.
  destruct (decide (to = from)) as [->|Hne].
  - rewrite lookup_insert, Pf, lookup_insert. cbn. split; [split; reflexivity|]. intros _.
    rewrite wsub_exact by assumption. rewrite wadd_exact by lia. lia.
  - rewrite lookup_insert_ne, lookup_insert by congruence. cbn. split; [split; reflexivity|]. intros _.
    rewrite wsub_exact by assumption. lia.
Qed.

Lemma vmake_facts V V' a :
  vmake V V' a -> view_ok V ->
  tot V' <= tot V /\ view_ok V' /\ (is_precompile a = false -> tot V' = tot V) /\
  (intact V -> intact V') /\
  (forall b, is_precompile b = false -> acc_at V' b = acc_at V b).
Proof.
  intros [->|(-> & Hno)] Hok.
  - split_and!; auto using N.le_refl.
  - pose proof (sum_insert a_balance V a acct0) as S. cbn in S.
    pose proof two256_pos. split_and!.
    + lia.
    + apply view_ok_insert; auto.
    + intros P. destruct Hno as [Hno|?]; [|congruence]. unfold at_ in S. rewrite Hno in S. lia.
    + intros I. now apply intact_insert.
    + intros b Pb. rewrite acc_at_insert. destruct (decide (b = a)) as [->|]; [|reflexivity].
      destruct Hno as [Hno|?]; [|congruence]. unfold acc_at. now rewrite Hno.
Qed.

(** ** One callback *)
Lemma selfdestruct_view w h a b h' :
  w_ro w = false -> selfdestruct w h a b = Fine h' -> h_retry h' = false -> cache_ok w (h_acc h) ->
  vtransfer (view w h) a b 0 = Some (view w h') /\ cache_ok w (h_acc h') /\
  h_retry h = false /\ h_code h' = h_code h /\ h_sto h' = h_sto h /\ h_init h' = h_init h.
Proof. apply transfer_view. Qed.

Definition reads (e : event) : bool :=
  match e with
  | EExists _ | EBalance _ | EGetStorage _ _ | ECodeSize _ | ECodeHash _ | ECopyCode _ | ELog _ => true
  | _ => false
  end.

(** What a callback does to the accounts. *)
Definition vevent (w : world) (V : gmap N acct) (f : frame) (e : event) (V' : gmap N acct) : Prop :=
  match e with
  | ESetStorage a _ _ => vmake V V' a
  | ESelfdestruct a b => vtransfer V a b 0 = Some V'
  | EEnter m => venter w V m V'
  | ELeave _ _ _ => match f_new f with Some a => vmake V V' a | None => V' = V end
  | _ => V' = V
  end.

Lemma step_view w r e r' :
  w_ro w = false -> step w r e = Stepped r' -> h_retry (r_host r') = false ->
  (h_retry (r_host r) = false -> cache_ok w (h_acc (r_host r))) ->
  exists f rest, r_stack r = f :: rest /\
    vevent w (view w (r_host r)) f e (view w (r_host r')) /\
    cache_ok w (h_acc (r_host r')) /\ h_retry (r_host r) = false /\
    h_init (r_host r') = h_init (r_host r).
Proof.
  intros Hro E R HC. unfold step in E. destruct (r_stack r) as [|f rest] eqn:St; [discriminate|].
  exists f, rest. split; [reflexivity|].
  destruct r as [h st res]. cbn [r_host r_stack r_result] in *. subst st.
  destruct e as [a|a|a k|a k v|a|a|a|a b|l|m|s g out]; cbn [with_host r_stack r_result] in E; cbn [vevent].
  - injection E as <-. cbn [r_host] in *. destruct (get_account w h a false) as [m h1] eqn:E1. cbn [snd] in *.
    assert (R0 := get_account_retry _ _ _ _ _ _ E1 R).
    destruct (get_account_view _ _ _ _ _ _ E1 R (HC R0)) as (? & ? & _ & _ & _ & ? & _). auto.
  - injection E as <-. cbn [r_host] in *. unfold get_balance in *.
    destruct (get_account w h a false) as [m h1] eqn:E1. cbn [snd] in *.
    assert (R0 := get_account_retry _ _ _ _ _ _ E1 R).
    destruct (get_account_view _ _ _ _ _ _ E1 R (HC R0)) as (? & ? & _ & _ & _ & ? & _). auto.
  - injection E as <-. cbn [r_host] in *. destruct (get_account_storage w h (a, k) false) as [m h1] eqn:E1.
    cbn [snd] in *. destruct (get_sto_frame _ _ _ _ _ _ E1) as (Fa & _ & Fi & FR).
    specialize (FR R). rewrite (view_same_acc w h h1 Fa), Fa. auto.
  - destruct (set_storage w h a k v) as [h1|] eqn:E1; [|discriminate]. injection E as <-. cbn [r_host] in *.
    assert (R0 : h_retry h = false).
    { destruct (h_retry h) eqn:Q; [|reflexivity]. exfalso. revert E1. unfold set_storage.
      rewrite Hro. cbn [negb].
      assert (Kg : forall h b wr, h_retry h = true -> h_retry (snd (get_account w h b wr)) = true).
      { intros h0 b wr Hq. destruct (get_account w h0 b wr) as [m h2] eqn:G. cbn.
        destruct (h_retry h2) eqn:Q2; [reflexivity|].
        rewrite (get_account_retry _ _ _ _ _ _ G Q2) in Hq. discriminate. }
      assert (Ks : forall h k wr, h_retry h = true -> h_retry (snd (get_account_storage w h k wr)) = true).
      { intros h0 b wr Hq. destruct (get_account_storage w h0 b wr) as [m h2] eqn:G. cbn.
        destruct (h_retry h2) eqn:Q2; [reflexivity|].
        destruct (get_sto_frame _ _ _ _ _ _ G) as (_ & _ & _ & FR). rewrite (FR Q2) in Hq. discriminate. }
      pose proof (Kg h a false Q) as K1. destruct (get_account w h a false) as [m h2]. cbn in K1.
      destruct m as [acc|].
      - pose proof (Ks h2 (a, k) true K1) as K2.
        destruct (get_account_storage w h2 (a, k) true) as [u h3]. cbn in K2.
        intros [= <-]. cbn in R. congruence.
      - pose proof (Kg h2 a true K1) as K2. destruct (get_account w h2 a true) as [m2 h3]. cbn in K2.
        destruct (w_dbg w && _); [discriminate|].
        pose proof (Ks (put_acc h3 a (Some acct0) true) (a, k) true K2) as K3.
        destruct (get_account_storage w (put_acc h3 a (Some acct0) true) (a, k) true) as [u h4].
        cbn in K3. intros [= <-]. cbn in R. congruence. }
    destruct (set_storage_view _ _ _ _ _ _ Hro E1 R (HC R0)) as (? & ? & _ & _ & ?). auto.
  - injection E as <-. cbn [r_host] in *. destruct (get_code_size w h a) as [m h1] eqn:E1.
    cbn [snd] in *. destruct (get_size_frame _ _ _ _ _ E1) as (Fa & _ & Fi & FR).
    specialize (FR R). rewrite (view_same_acc w h h1 Fa), Fa. auto.
  - injection E as <-. cbn [r_host] in *. destruct (get_account_code w h a false) as [m h1] eqn:E1.
    cbn [snd] in *. destruct (get_code_frame _ _ _ _ _ _ E1) as (Fa & _ & Fi & FR).
    specialize (FR R). rewrite (view_same_acc w h h1 Fa), Fa. auto.
  - injection E as <-. cbn [r_host] in *. destruct (get_account_code w h a false) as [m h1] eqn:E1.
    cbn [snd] in *. destruct (get_code_frame _ _ _ _ _ _ E1) as (Fa & _ & Fi & FR).
    specialize (FR R). rewrite (view_same_acc w h h1 Fa), Fa. auto.
  - destruct (selfdestruct w h a b) as [h1|] eqn:E1; [|discriminate]. injection E as <-. cbn [r_host] in *.
    assert (R0 : h_retry h = false).
    { unfold selfdestruct, transfer in E1. rewrite Hro in E1. cbn [negb] in E1.
      destruct (get_account w h a true) as [q h5] eqn:Q. destruct q; [|discriminate].
      match type of E1 with context [get_account w ?H ?A true] =>
        destruct (get_account w H A true) as [q2 h6] eqn:Q2 end.
      injection E1 as <-. cbn in R.
      exact (get_account_retry _ _ _ _ _ _ Q (get_account_retry _ _ _ _ _ _ Q2 R)). }
    destruct (selfdestruct_view _ _ _ _ _ Hro E1 R (HC R0)) as (? & ? & _ & _ & _ & ?). auto.
  - injection E as <-. cbn in R |- *. split_and!; auto.
  - destruct (enter w h false m) as [[h1 en]|] eqn:E1; [|discriminate].
    assert (Eh : r_host r' = h1) by (destruct en; now injection E as <-).
    rewrite Eh in R |- *.
    assert (R0 : h_retry h = false).
    { destruct (h_retry h) eqn:Q; [|reflexivity]. exfalso. revert E1.
      assert (Kg : forall h b wr, h_retry h = true -> h_retry (snd (get_account w h b wr)) = true).
      { intros h0 b wr Hq. destruct (get_account w h0 b wr) as [m0 h2] eqn:G. cbn.
        destruct (h_retry h2) eqn:Q2; [reflexivity|].
        rewrite (get_account_retry _ _ _ _ _ _ G Q2) in Hq. discriminate. }
      assert (Kt : forall h x y z h2, h_retry h = true -> transfer w h x y z = Fine h2 -> h_retry h2 = true).
      { intros h0 x y z h2 Hq. unfold transfer. pose proof (Kg h0 x (negb (w_ro w)) Hq) as K1.
        destruct (get_account w h0 x (negb (w_ro w))) as [q h5]. destruct q; [|discriminate].
        match goal with |- context [get_account w ?H ?A ?B] =>
          pose proof (Kg H A B K1) as K2; destruct (get_account w H A B) as [q2 h6] end.
        intros [= <-]. exact K2. }
      assert (Kz : forall h b, h_retry h = true -> h_retry (snd (get_code_size w h b)) = true).
      { intros h0 b Hq. destruct (get_code_size w h0 b) as [m0 h2] eqn:G. cbn.
        destruct (h_retry h2) eqn:Q2; [reflexivity|].
        destruct (get_size_frame _ _ _ _ _ G) as (_ & _ & _ & FR). rewrite (FR Q2) in Hq. discriminate. }
      assert (Kc : forall h b wr, h_retry h = true -> h_retry (snd (get_account_code w h b wr)) = true).
      { intros h0 b wr Hq. destruct (get_account_code w h0 b wr) as [m0 h2] eqn:G. cbn.
        destruct (h_retry h2) eqn:Q2; [reflexivity|].
        destruct (get_code_frame _ _ _ _ _ _ G) as (_ & _ & _ & FR). rewrite (FR Q2) in Hq. discriminate. }
      unfold enter, enter_create, enter_call.
      assert (Cr : forall h2 en, match get_account w h (m_sender m) false with
        | (Some sender, h3) =>
          match (if m_value m =? 0 then Fine h3
                 else transfer w h3 (m_sender m)
                   match m_kind m with
                   | KCreate => w_caddr w (m_sender m) (a_nonce sender)
                   | _ => w_caddr2 w (m_sender m) (m_salt m) (m_input m)
                   end (m_value m)) with
          | Fine h4 => Fine (h4, Running (Frame (Some match m_kind m with
                   | KCreate => w_caddr w (m_sender m) (a_nonce sender)
                   | _ => w_caddr2 w (m_sender m) (m_salt m) (m_input m)
                   end) match m_kind m with
                   | KCreate => w_caddr w (m_sender m) (a_nonce sender)
                   | _ => w_caddr2 w (m_sender m) (m_salt m) (m_input m)
                   end (m_gas m)))
          | Dead => Dead
          end
        | (None, h3) => Fine (h3, Returned Revert 0)
        end = Fine (h2, en) -> h_retry h2 = true).
      { intros h2 en0. pose proof (Kg h (m_sender m) false Q) as K1.
        destruct (get_account w h (m_sender m) false) as [[sd|] h3]; cbn in K1.
        - destruct (m_value m =? 0).
          + intros [= <- _]. exact K1.
          + match goal with |- context [transfer w ?H ?A ?B ?C] =>
              destruct (transfer w H A B C) as [h4|] eqn:T end; [|discriminate].
            intros [= <- _]. exact (Kt _ _ _ _ _ K1 T).
        - intros [= <- _]. exact K1. }
      assert (Ca : forall (native : bool) ca h2 en,
        match (if native then transfer w h (m_sender m) (m_recipient m) (m_value m) else Fine h) with
        | Fine h3 =>
          let '(size, h4) := get_code_size w h3 ca in
          if Nat.eqb size 0 then
            Fine (if native then set_success h4 true else h4, Returned Success (m_gas m))
          else
            let '(c, h5) := get_account_code w h4 ca false in
            if w_dbg w && negb (Nat.eqb match c with Some c => length c | None => 0%nat end size) then Dead
            else Fine (h5, Running (Frame None (m_recipient m) (m_gas m)))
        | Dead => Dead
        end = Fine (h2, en) -> h_retry h2 = true).
      { intros native ca h2 en0.
        destruct (if native then transfer w h (m_sender m) (m_recipient m) (m_value m) else Fine h)
          as [h3|] eqn:T; [|discriminate].
        assert (K1 : h_retry h3 = true).
        { destruct native; [exact (Kt _ _ _ _ _ Q T)|now injection T as <-]. }
        pose proof (Kz h3 ca K1) as K2. destruct (get_code_size w h3 ca) as [size h4]. cbn in K2.
        destruct (Nat.eqb size 0).
        - intros [= <- _]. destruct native; exact K2.
        - pose proof (Kc h4 ca false K2) as K3. destruct (get_account_code w h4 ca false) as [c h5]. cbn in K3.
          destruct (w_dbg w && _); [discriminate|]. intros [= <- _]. exact K3. }
      destruct (m_kind m) eqn:Kd; intros X; try (apply Ca in X; congruence);
        apply Cr in X; congruence. }
    destruct (enter_view _ _ _ _ _ _ Hro E1 R (HC R0)) as (? & ? & _ & ? & _). auto.
  - assert (Eh : exists top, r_host r' = leave w h top f s out).
    { destruct rest; injection E as <-; [exists true|exists false]; reflexivity. }
    destruct Eh as [top Eh]. rewrite Eh in R |- *.
    assert (R0 : h_retry h = false).
    { destruct (h_retry h) eqn:Q; [|reflexivity]. exfalso. revert R. unfold leave.
      assert (Tp : forall h1, h_retry (if top then set_success (set_out h1 out) (is_success s) else h1) = h_retry h1)
        by now destruct top.
      rewrite Tp. destruct (f_new f) as [a|]; [destruct (is_success s)|]; try congruence.
      destruct (get_account w h a (negb (w_ro w))) as [m h1] eqn:G.
      match goal with |- context [get_account_code w ?H a ?B] =>
        destruct (get_account_code w H a B) as [c h3] eqn:G2 end.
      cbn. intros R3. destruct (get_code_frame _ _ _ _ _ _ G2) as (_ & _ & _ & FR).
      specialize (FR R3). cbn in FR.
      rewrite (get_account_retry _ _ _ _ _ _ G FR) in Q. discriminate. }
    destruct (leave_view _ _ _ _ _ _ Hro R (HC R0)) as (? & ? & _ & ? & _ & _). auto.
Qed.
