(** Proofs for property C94. *)
From stdpp Require Import base option list gmap fin_maps.
From Coq Require Import NArith Lia.
From Verif Require Import Base HttpModel HttpSpec.
Open Scope N_scope.

Section http.
  Context {J : Type} (ends : N) (parse : bytes -> option J).
  Implicit Types (h g : list (hevent J)) (s : hst J).
  Notation run ins := (fold_left (http_step ends parse) ins http0).

  Lemma answers_app c h g : answers c (h ++ g) = answers c h ++ answers c g.
  Proof. apply omap_app. Qed.
  Lemma received_app c h g : received c (h ++ g) = received c h ++ received c g.
  Proof. unfold received. by rewrite omap_app, concat_app. Qed.

  (** Events about other calls. *)
  Definition apart (c : nat) (e : hevent J) : Prop :=
    match e with HData d _ | HAnswer d _ => d <> c | _ => True end.
  Lemma apart_none c g : Forall (apart c) g -> answers c g = [] /\ received c g = [].
  Proof.
    induction 1 as [|e g He _ [IH1 IH2]]; [done|]. unfold answers, received in *. simpl.
    destruct e; simpl in *; try done; rewrite (proj2 (Nat.eqb_neq _ _) He); done.
  Qed.

  (** ** Every result *)

  Definition good_result (c : nat) (j : J) h : Prop :=
    parse (received c h) = Some j /\ exists code, HDone c code ∈ h /\ code / 100 = 2.

  Record always h : Prop := {
    al_once : forall c, (length (answers c h) <= 1)%nat;
    al_called : forall i c r, h !! i = Some (HAnswer c r) -> HCall c ∈ take i h;
    al_res : forall i c j, h !! i = Some (HAnswer c (Some j)) -> good_result c j (take i h);
    al_sent : forall i c e, h !! i = Some (HSent c e) ->
      (e < ends) /\ (received c (take i h) = [] \/ exists i', i = S i' /\ h !! i' = Some (HFailed c))
  }.

  (** Neither an answer nor a request. *)
  Definition plain (e : hevent J) : Prop :=
    match e with HAnswer _ _ | HSent _ _ => False | _ => True end.

  Lemma always_snoc h e : always h ->
    (forall c r, e = HAnswer c r -> answers c h = [] /\ HCall c ∈ h /\
       forall j, r = Some j -> good_result c j h) ->
    (forall c x, e = HSent c x -> x < ends /\
       (received c h = [] \/ exists g, h = g ++ [HFailed c])) ->
    always (h ++ [e]).
  Proof.
    intros [O C R S] Ha Hs. constructor.
    - intros c. rewrite answers_app, app_length. specialize (O c). unfold answers at 2. simpl.
      destruct e; simpl; try lia. destruct (Nat.eqb c0 c) eqn:E; simpl; [|lia].
      apply Nat.eqb_eq in E as ->. destruct (Ha _ _ eq_refl) as [-> _]. simpl. lia.
    - intros i c r [H|[H1 H]]%lookup_app_Some.
      + rewrite take_app_le; [by eapply C|]. apply lookup_lt_Some in H. lia.
      + apply list_lookup_singleton_Some in H as [H2 ->].
        replace i with (length h) by lia. rewrite take_app. by eapply Ha.
    - intros i c j [H|[H1 H]]%lookup_app_Some.
      + rewrite take_app_le; [by apply R|]. apply lookup_lt_Some in H. lia.
      + apply list_lookup_singleton_Some in H as [H2 ->].
        replace i with (length h) by lia. rewrite take_app.
        destruct (Ha _ _ eq_refl) as (_ & _ & Ha'). by apply Ha'.
    - intros i c x [H|[H1 H]]%lookup_app_Some.
      + pose proof (lookup_lt_Some _ _ _ H). rewrite take_app_le by lia.
        destruct (S _ _ _ H) as [S1 [S2|(i' & -> & S2)]]; (split; [done|]); [by left|].
        right. exists i'. split; [done|]. rewrite lookup_app_l; [done|]. lia.
      + apply list_lookup_singleton_Some in H as [H2 ->].
        replace i with (length h) by lia. rewrite take_app.
        destruct (Hs _ _ eq_refl) as [L [E|[g E]]]; (split; [done|]); [by left|right].
        exists (length g). rewrite E, app_length. split; [simpl; lia|].
        rewrite lookup_app_l by (rewrite app_length; simpl; lia).
        by rewrite lookup_app_r, Nat.sub_diag.
  Qed.
  Lemma always_plain h e : always h -> plain e -> always (h ++ [e]).
  Proof. intros A P. apply always_snoc; [done|by intros ? ? ->|by intros ? ? ->]. Qed.

  (** ** While the client lives *)

  Record live s : Prop := {
    lv_tf : forall x t, hs_tf s !! x = Some t ->
      (tf_id t < hs_next s)%nat /\ (x < length (hs_urls s))%nat /\ x ∉ hs_free s;
    lv_inj : forall x y t u, hs_tf s !! x = Some t -> hs_tf s !! y = Some u ->
      tf_id t = tf_id u -> x = y;
    lv_nodup : NoDup (hs_free s);
    lv_free : forall x, x ∈ hs_free s -> (x < length (hs_urls s))%nat;
    lv_urls : Forall (fun e => e < ends) (hs_urls s);
    lv_idx : ends <> 0 -> hs_idx s < ends;
    lv_open : forall x t, hs_tf s !! x = Some t ->
      answers (tf_id t) (hs_hist s) = [] /\ tf_data t = received (tf_id t) (hs_hist s) /\
      HCall (tf_id t) ∈ hs_hist s;
    lv_new : forall c, (hs_next s <= c)%nat ->
      answers c (hs_hist s) = [] /\ received c (hs_hist s) = []
  }.

  Definition hinv s : Prop := always (hs_hist s) /\ (hs_stop s = false -> live s).

  Lemma url_lt s x : live s -> (x < length (hs_urls s))%nat -> default 0 (hs_urls s !! x) < ends.
  Proof.
    intros L H. destruct (lookup_lt_is_Some_2 _ _ H) as [e He]. rewrite He. simpl.
    exact (proj1 (Forall_lookup _ _) (lv_urls s L) _ _ He).
  Qed.

  Lemma start_inv s x e add : hinv s -> hs_stop s = false ->
    live s -> hs_tf s !! x = None -> (x < length (hs_urls s))%nat -> x ∉ hs_free s -> e < ends ->
    hinv (start s x e add).
  Proof.
    intros [A _] St L Hx Hlt Hf He.
    assert (A1 : always (hs_hist s ++ [HCall (hs_next s)])) by by apply always_plain.
    destruct L as [T I ND F U Ix O N].
    unfold start, h_emit, h_stop; simpl. destruct add.
    - assert (Ap : forall c, Forall (apart c) [@HCall J (hs_next s); HSent (hs_next s) e])
        by (intros c; repeat constructor).
      split; simpl.
      + apply always_snoc; [done|done|]. intros c x' [= <- <-]. split; [done|]. left.
        rewrite received_app, (proj2 (N _ (le_n _))). done.
      + intros _. rewrite <- (assoc_L (++)). simpl. constructor; simpl; try done.
        * intros y t [[<- <-]|[Hne H]]%lookup_insert_Some; simpl; [split_and!; [lia|done..]|].
          destruct (T _ _ H) as (? & ? & ?). split_and!; [lia|done..].
        * intros y z t u [[<- <-]|[Hne H]]%lookup_insert_Some [[<- <-]|[Hne' H']]%lookup_insert_Some;
            simpl; try done; intros E.
          -- destruct (T _ _ H') as [? _]. lia.
          -- destruct (T _ _ H) as [? _]. lia.
          -- by eapply I.
        * intros y t [[<- <-]|[Hne H]]%lookup_insert_Some; simpl.
          -- rewrite answers_app, received_app. destruct (N _ (le_n (hs_next s))) as [-> ->].
             destruct (apart_none _ _ (Ap (hs_next s))) as [-> ->]. split_and!; [done..|].
             apply elem_of_app. right. left.
          -- rewrite answers_app, received_app.
             destruct (apart_none _ _ (Ap (tf_id t))) as [-> ->]. rewrite !app_nil_r.
             destruct (O y t H) as (? & ? & ?). split_and!; [done..|]. apply elem_of_app. by left.
        * intros c Hc. rewrite answers_app, received_app.
          destruct (apart_none _ _ (Ap c)) as [-> ->]. rewrite !app_nil_r. apply N. lia.
    - split; simpl; [|done]. by apply always_plain.
  Qed.

  Lemma call_inv s add : hinv s -> hinv (call ends s add).
  Proof.
    intros I. unfold call. destruct (hs_stop s) eqn:St; [done|]. pose proof (proj2 I St) as L.
    destruct (hs_free s) as [|x free] eqn:Hf.
    - destruct (ends =? 0) eqn:E0.
      + split; [|done]. simpl. apply always_plain; [apply I|done].
      + apply N.eqb_neq in E0. pose proof L as [T In ND F U Ix O N].
        assert (L1 : live (Hst (hs_tf s) [] (hs_urls s ++ [hs_idx s]) ((hs_idx s + 1) mod ends)
                      (hs_next s) false (hs_hist s))).
        { constructor; simpl; try done.
          - intros y t H. destruct (T _ _ H) as (? & ? & ?). rewrite app_length.
            split_and!; [done|lia|by intros ?%elem_of_nil].
          - constructor.
          - by intros y H%elem_of_nil.
          - apply Forall_app. split; [done|]. apply Forall_singleton. by apply Ix.
          - intros _. by apply N.mod_lt. }
        apply start_inv; simpl; try done.
        * split; [apply I|intros _; exact L1].
        * destruct (hs_tf s !! length (hs_urls s)) as [t|] eqn:E; [|done].
          destruct (T _ _ E) as (_ & ? & _). lia.
        * rewrite app_length. simpl. lia.
        * by intros ?%elem_of_nil.
        * by apply Ix.
    - pose proof L as [T In ND F U Ix O N]. rewrite Hf in *.
      assert (L1 : live (Hst (hs_tf s) free (hs_urls s) (hs_idx s) (hs_next s) false (hs_hist s))).
      { constructor; simpl; try done.
        - intros y t H. destruct (T _ _ H) as (? & ? & H2). split_and!; [done..|].
          intros H3. apply H2. by right.
        - by inversion ND.
        - intros y H. apply F. by right. }
      apply start_inv; simpl; try done.
      + split; [apply I|intros _; exact L1].
      + destruct (hs_tf s !! x) as [t|] eqn:E; [|done].
        destruct (T _ _ E) as (_ & _ & H). destruct H. left.
      + apply F. left.
      + inversion ND; subst. done.
      + eapply url_lt; [exact L|]. apply F. left.
  Qed.

  Lemma calls_inv again : forall s, hinv s -> hinv (fold_left (call ends) again s).
  Proof. induction again as [|a again IH]; intros s I; [done|]. simpl. by apply IH, call_inv. Qed.

  (** A handle that is neither in use nor free is not taken by other calls. *)
  Definition parked (x : nat) s : Prop :=
    (x < length (hs_urls s))%nat /\ hs_tf s !! x = None /\ x ∉ hs_free s.
  Lemma parked_call x s add : parked x s -> hs_stop s = false -> parked x (call ends s add).
  Proof.
    intros (P1 & P2 & P3) St. unfold call. rewrite St. destruct (hs_free s) as [|y free] eqn:Hf.
    - destruct (ends =? 0); [by split_and!; simpl; rewrite ?Hf|]. unfold start.
      destruct add; (split_and!; simpl; [rewrite app_length; lia| |by intros ?%elem_of_nil]);
        (rewrite lookup_insert_ne by lia; done).
    - unfold start. apply not_elem_of_cons in P3 as [P3 P4].
      destruct add; (split_and!; simpl; [done| |done]); (by rewrite lookup_insert_ne by done).
  Qed.
  Lemma call_stop s add : hs_stop s = true -> call ends s add = s.
  Proof. intros H. unfold call. by rewrite H. Qed.
  Lemma calls_stop again : forall s, hs_stop s = true -> fold_left (call ends) again s = s.
  Proof.
    induction again as [|a again IH]; intros s H; [done|]. simpl. rewrite (call_stop s a H).
    by apply IH.
  Qed.
  Lemma parked_calls x again : forall s, parked x s ->
    hs_stop (fold_left (call ends) again s) = false -> parked x (fold_left (call ends) again s).
  Proof.
    induction again as [|a again IH]; intros s P H; [done|]. simpl in *.
    apply IH; [|done]. apply parked_call; [done|]. destruct (hs_stop s) eqn:E; [|done].
    rewrite (call_stop s a E), (calls_stop again s E) in H. congruence.
  Qed.

  (** The transfer of handle [x] is dropped; [l] is seen of it. *)
  Lemma drop_live s x t l : live s -> hs_tf s !! x = Some t ->
    (forall c, c <> tf_id t -> Forall (apart c) l) ->
    live (Hst (delete x (hs_tf s)) (hs_free s) (hs_urls s) (hs_idx s) (hs_next s) (hs_stop s)
            (hs_hist s ++ l)).
  Proof.
    intros [T In ND F U Ix O N] Hx Hl. constructor; simpl; try done.
    - intros y u [_ H]%lookup_delete_Some. by apply T.
    - intros y z u v [_ H]%lookup_delete_Some [_ H']%lookup_delete_Some. by apply In.
    - intros y u [Hne H]%lookup_delete_Some.
      assert (D : tf_id u <> tf_id t) by (intros E; by apply Hne, (In _ _ _ _ Hx H)).
      rewrite answers_app, received_app. destruct (apart_none _ _ (Hl _ D)) as [-> ->].
      rewrite !app_nil_r. destruct (O y u H) as (? & ? & ?). split_and!; [done..|].
      apply elem_of_app. by left.
    - intros c Hc. destruct (T _ _ Hx) as [Hlt _]. assert (D : c <> tf_id t) by lia.
      rewrite answers_app, received_app. destruct (apart_none _ _ (Hl _ D)) as [-> ->].
      rewrite !app_nil_r. by apply N.
  Qed.

  Lemma message_inv s x m again rm add : hinv s -> hs_stop s = false ->
    hinv (message ends parse s x m again rm add).
  Proof.
    intros I St. pose proof (proj2 I St) as L. unfold message, h_emit, h_stop; simpl.
    destruct (hs_tf s !! x) as [t|] eqn:Hx; [|done].
    destruct (lv_tf s L _ _ Hx) as (Hid & Hlt & Hfree).
    destruct (lv_open s L _ _ Hx) as (Ha & Hd & Hcall).
    assert (Fin : forall l code, (l = [HDone (tf_id t) code] /\ m = MDone code) \/ (l = [] /\ m = MOther) ->
      let s1 := Hst (delete x (hs_tf s)) (hs_free s) (hs_urls s) (hs_idx s) (hs_next s)
                        (hs_stop s) (hs_hist s ++ l ++ [HAnswer (tf_id t) (result parse m (tf_data t))]) in
      let s2 := fold_left (call ends) again s1 in
      let s3 := Hst (hs_tf s2) (hs_free s2 ++ [x]) (hs_urls s2) (hs_idx s2) (hs_next s2)
                        (hs_stop s2) (hs_hist s2) in
      hinv (if hs_stop s2 then s2 else if rm then s3 else h_emit s3 [HPump false])).
    { intros l code Hl s1 s2 s3.
      assert (I1 : hinv s1).
      { split; simpl.
        - rewrite (assoc_L (++)).
          assert (A1 : always (hs_hist s ++ l)).
          { destruct Hl as [[-> _]|[-> _]]; [|rewrite app_nil_r; apply I].
            apply always_plain; [apply I|done]. }
          assert (E1 : answers (tf_id t) (hs_hist s ++ l) = []).
          { rewrite answers_app, Ha. by destruct Hl as [[-> _]|[-> _]]. }
          assert (E2 : received (tf_id t) (hs_hist s ++ l) = tf_data t).
          { rewrite received_app, <- Hd. destruct Hl as [[-> _]|[-> _]]; by rewrite app_nil_r. }
          apply always_snoc; [done| |done]. intros c r [= <- <-].
          split_and!; [done|apply elem_of_app; by left|]. intros j Hj. split; [by rewrite E2; destruct Hl as [[-> ->]|[-> ->]];
              simpl in Hj; [destruct (_ =? 2) in Hj|]|].
          destruct Hl as [[-> ->]|[-> ->]]; [|done]. exists code. simpl in Hj.
          destruct (N.eqb_spec (code / 100) 2); [|done]. split; [|done].
          apply elem_of_app. right. by apply elem_of_list_singleton.
        - intros _. apply (drop_live s x t); [done..|]. intros c Hc.
          apply Forall_app. split; [destruct Hl as [[-> _]|[-> _]]; repeat constructor|].
          apply Forall_singleton. simpl. done. }
      assert (P1 : parked x s1) by (split_and!; [done|by apply lookup_delete|done]).
      assert (I2 : hinv s2) by by apply calls_inv.
      destruct (hs_stop s2) eqn:S2; [done|].
      assert (P2 : parked x s2) by by apply parked_calls.
      assert (I3 : hinv s3).
      { split; [apply I2|]. intros _. destruct (proj2 I2 S2) as [T In ND F U Ix O N].
        destruct P2 as (Q1 & Q2 & Q3). constructor; simpl; try done.
        - intros y u H. destruct (T _ _ H) as (? & ? & H3). split_and!; [done..|].
          intros [?| ->%elem_of_list_singleton]%elem_of_app; [done|].
          rewrite Q2 in H. done.
        - apply NoDup_app. split_and!; [done| |apply NoDup_singleton].
          by intros y Hy ->%elem_of_list_singleton.
        - intros y [Hy| ->%elem_of_list_singleton]%elem_of_app; [by apply F|done]. }
      destruct rm; [done|]. split; simpl.
      - apply always_plain; [apply I2|done].
      - intros St3. destruct (proj2 I3 St3) as [T In ND F U Ix O N].
        constructor; simpl; try done.
        + intros y u H. rewrite answers_app, received_app. simpl. rewrite !app_nil_r.
          destruct (O y u H) as (? & ? & ?). split_and!; [done..|]. apply elem_of_app. by left.
        + intros c Hc. rewrite answers_app, received_app. simpl. rewrite !app_nil_r. by apply N. }
    destruct m as [code| |].
    - apply (Fin [HDone (tf_id t) code] code). by left.
    - clear Fin.
      assert (A1 : always (hs_hist s ++ [HFailed (tf_id t)])) by (apply always_plain; [apply I|done]).
      destruct (rm && add).
      + split; simpl.
        * change [HFailed (tf_id t); HSent (tf_id t) (default 0 (hs_urls s !! x))]
            with ([HFailed (tf_id t)] ++ [HSent (tf_id t) (default 0 (hs_urls s !! x))] : list (hevent J)).
          rewrite (assoc_L (++)). apply always_snoc; [done|done|]. intros c e [= <- <-].
          split; [by apply url_lt|]. right. eauto.
        * intros _. destruct L as [T In ND F U Ix O N]. constructor; simpl; try done.
          -- intros y u H. rewrite answers_app, received_app. simpl. rewrite !app_nil_r.
          destruct (O y u H) as (? & ? & ?). split_and!; [done..|]. apply elem_of_app. by left.
          -- intros c Hc. rewrite answers_app, received_app. simpl. rewrite !app_nil_r. by apply N.
      + split; simpl.
        * change [HFailed (tf_id t); HPump false]
            with ([HFailed (tf_id t)] ++ [HPump false] : list (hevent J)).
          rewrite (assoc_L (++)). by apply always_plain.
        * intros _. apply (drop_live s x t); [done..|]. intros c Hc. repeat constructor.
    - apply (Fin [] 0). by right.
  Qed.

  Lemma write_inv s x b : hinv s -> hs_stop s = false -> hinv (write_data s x b).
  Proof.
    intros I St. unfold write_data. destruct (hs_tf s !! x) as [t|] eqn:Hx; [|done].
    split; simpl; [apply always_plain; [apply I|done]|]. intros _.
    destruct (proj2 I St) as [T In ND F U Ix O N].
    assert (Ap : forall c, c <> tf_id t -> Forall (apart c) [@HData J (tf_id t) b])
      by (intros c Hc; apply Forall_singleton; simpl; done).
    constructor; simpl; try done.
    - intros y u [[<- <-]|[_ H]]%lookup_insert_Some; [exact (T _ _ Hx)|by apply T].
    - intros y z u v [[<- <-]|[Hne H]]%lookup_insert_Some [[<- <-]|[Hne' H']]%lookup_insert_Some;
        simpl; try done; intros E; by eapply In.
    - intros y u [[<- <-]|[Hne H]]%lookup_insert_Some; simpl.
      + destruct (O _ _ Hx) as (O1 & O2 & O3). rewrite answers_app, received_app, O1, O2.
        split_and!; [done| |apply elem_of_app; by left]. unfold received at 3. simpl. rewrite Nat.eqb_refl. simpl.
        by rewrite app_nil_r.
      + assert (D : tf_id u <> tf_id t) by (intros E; by apply Hne, (In _ _ _ _ Hx H)).
        rewrite answers_app, received_app. destruct (apart_none _ _ (Ap _ D)) as [-> ->].
        rewrite !app_nil_r. destruct (O y u H) as (? & ? & ?). split_and!; [done..|].
        apply elem_of_app. by left.
    - intros c Hc. destruct (T _ _ Hx) as [Hlt _]. assert (D : c <> tf_id t) by lia.
      rewrite answers_app, received_app. destruct (apart_none _ _ (Ap _ D)) as [-> ->].
      rewrite !app_nil_r. by apply N.
  Qed.

  (** Answers to different open calls, one after the other. *)
  Lemma always_nones l : forall h, always h -> NoDup l ->
    (forall c, c ∈ l -> answers c h = [] /\ HCall c ∈ h) -> always (h ++ map (fun c => HAnswer c None) l).
  Proof.
    induction l as [|c l IH]; intros h A ND O; simpl; [by rewrite app_nil_r|].
    change (HAnswer c None :: map (fun c => HAnswer c None) l)
      with ([HAnswer c None] ++ map (fun c => HAnswer c None) l : list (hevent J)).
    rewrite (assoc_L (++)). inversion ND; subst. apply IH; [|done|].
    - apply always_snoc; [done| |done]. intros d r [= <- <-]. 
      destruct (O c) as [? ?]; [left|done].
    - intros d Hd. destruct (O d) as [O1 O2]; [by right|]. split; [|apply elem_of_app; by left].
      rewrite answers_app, O1. unfold answers. simpl.
      destruct (Nat.eqb c d) eqn:E; [|done]. apply Nat.eqb_eq in E as ->. done.
  Qed.

  Lemma ids_nodup s : live s ->
    NoDup (map (fun p : nat * transfer => tf_id p.2) (map_to_list (hs_tf s))).
  Proof.
    intros L. pose proof (NoDup_map_to_list (hs_tf s)) as ND.
    assert (H : forall x t, (x, t) ∈ map_to_list (hs_tf s) -> hs_tf s !! x = Some t)
      by (intros x t; apply elem_of_map_to_list).
    revert ND H. generalize (map_to_list (hs_tf s)) as l.
    induction l as [|[x t] l IH]; simpl; intros ND H; [constructor|].
    inversion ND as [|? ? Hn ND']; subst. constructor.
    - intros ([y u] & E & Hin)%elem_of_list_fmap. simpl in E. apply Hn.
      assert (hs_tf s !! x = Some t) as H1 by (apply H; left).
      assert (hs_tf s !! y = Some u) as H2 by (apply H; by right).
      assert (x = y) as -> by (by eapply (lv_inj s L)). rewrite H1 in H2. by injection H2 as ->.
    - apply IH; [done|]. intros y u Hy. apply H. by right.
  Qed.

  Lemma destroy_inv s rm : hinv s -> hs_stop s = false -> hinv (destroy s rm).
  Proof.
    intros I St. pose proof (proj2 I St) as L. unfold destroy. case_match; (split; [simpl|done]).
    - rewrite <- (map_map (fun p : nat * transfer => tf_id p.2) (fun c => HAnswer c None)).
      apply always_nones; [apply I|by apply ids_nodup|].
      intros c ([x t] & -> & Hin)%elem_of_list_fmap. apply elem_of_map_to_list in Hin.
      by destruct (lv_open s L _ _ Hin) as (? & _ & ?).
    - apply always_plain; [apply I|done].
  Qed.

  Lemma step_inv s i : hinv s -> hinv (http_step ends parse s i).
  Proof.
    intros I. unfold http_step. destruct (hs_stop s) eqn:St; [done|]. destruct i.
    - by apply call_inv.
    - by apply write_inv.
    - by apply message_inv.
    - by apply destroy_inv.
  Qed.

  Lemma run_inv ins : hinv (run ins).
  Proof.
    induction ins as [|i ins IH] using rev_ind.
    - split; [constructor; simpl; [lia|done..]|]. intros _.
      constructor; simpl; try done; try (intros x t H; by rewrite lookup_empty in H).
      + constructor.
      + by intros x H%elem_of_nil.
      + lia.
    - rewrite fold_left_app. by apply step_inv.
  Qed.

  Lemma once ins c : (length (answers c (http ends parse ins)) <= 1)%nat.
  Proof. apply (al_once _ (proj1 (run_inv ins))). Qed.

  Lemma asked ins i c r : http ends parse ins !! i = Some (HAnswer c r) ->
    HCall c ∈ take i (http ends parse ins).
  Proof. apply (al_called _ (proj1 (run_inv ins))). Qed.

  Lemma truthful ins i c j : http ends parse ins !! i = Some (HAnswer c (Some j)) ->
    parse (received c (take i (http ends parse ins))) = Some j /\
    exists code, HDone c code ∈ take i (http ends parse ins) /\ code / 100 = 2.
  Proof. apply (al_res _ (proj1 (run_inv ins))). Qed.

  Lemma endpoint ins c e : HSent c e ∈ http ends parse ins -> e < ends.
  Proof. intros [i H]%elem_of_list_lookup. by apply (al_sent _ (proj1 (run_inv ins))) in H as [H _]. Qed.

  (** ** The body of the last response *)

  Lemma body_snoc c h e b : body_from c (h ++ [e]) b =
    match e with
    | HSent d _ => if Nat.eqb d c then [] else body_from c h b
    | HData d x => if Nat.eqb d c then body_from c h b ++ x else body_from c h b
    | _ => body_from c h b
    end.
  Proof.
    revert b. induction h as [|f h IH]; intros b; [by destruct e|].
    destruct f; simpl; apply IH.
  Qed.

  Lemma body_received h c : always h ->
    (forall i, h !! i = Some (HFailed c) -> received c (take i h) = []) -> body c h = received c h.
  Proof.
    induction h as [|e h IH] using rev_ind; intros A H; [done|].
    assert (A' : always h).
    { destruct A as [O C R S]. constructor.
      - intros d. specialize (O d). rewrite answers_app, app_length in O. lia.
      - intros i d r Hi. specialize (C i d r). rewrite take_app_le in C
          by (apply lookup_lt_Some in Hi; lia). apply C. by apply lookup_app_l_Some.
      - intros i d j Hi. specialize (R i d j). rewrite take_app_le in R
          by (apply lookup_lt_Some in Hi; lia). apply R. by apply lookup_app_l_Some.
      - intros i d x Hi. specialize (S i d x). pose proof (lookup_lt_Some _ _ _ Hi).
        rewrite take_app_le in S by lia.
        destruct S as [S1 [S2|(i' & -> & S2)]]; [by apply lookup_app_l_Some|split; [done|by left]|].
        split; [done|]. right. exists i'. split; [done|].
        rewrite lookup_app_l in S2 by lia. done. }
    assert (H' : forall i, h !! i = Some (HFailed c) -> received c (take i h) = []).
    { intros i Hi. specialize (H i). rewrite take_app_le in H by (apply lookup_lt_Some in Hi; lia).
      apply H. by apply lookup_app_l_Some. }
    unfold body in *. rewrite body_snoc, received_app, (IH A' H').
    unfold received at 3. destruct e as [d|d e|d x|d|d code|d r|b| |]; simpl;
      rewrite ?app_nil_r; try done.
    - destruct (Nat.eqb d c) eqn:E; [|done]. apply Nat.eqb_eq in E as ->. symmetry.
      destruct (al_sent _ A (length h) c e) as [_ [Sx|(i' & E & Sx)]].
      + by rewrite lookup_app_r, Nat.sub_diag.
      + by rewrite take_app in Sx.
      + assert (Hi : h !! i' = Some (HFailed c)).
        { rewrite lookup_app_l in Sx; [done|]. lia. }
        specialize (H' _ Hi).
        rewrite <- (take_drop_middle h i' _ Hi), received_app, H'.
        replace (drop (S i') h) with ([] : list (hevent J)) by (symmetry; apply drop_ge; lia). done.
    - unfold received at 3. simpl. destruct (Nat.eqb d c) eqn:E; simpl; by rewrite ?app_nil_r.
  Qed.

  Lemma always_take h i : always h -> always (take i h).
  Proof.
    intros [O C R S]. constructor.
    - intros c. specialize (O c). rewrite <- (take_drop i h), answers_app, app_length in O. lia.
    - intros k c r H. apply lookup_take_Some in H as [H Hk].
      rewrite take_take, Nat.min_l by lia. by eapply C.
    - intros k c j H. apply lookup_take_Some in H as [H Hk].
      rewrite take_take, Nat.min_l by lia. by apply R.
    - intros k c x H. apply lookup_take_Some in H as [H Hk].
      rewrite take_take, Nat.min_l by lia.
      destruct (S _ _ _ H) as [S1 [S2|(i' & -> & S2)]]; (split; [done|]); [by left|right].
      exists i'. split; [done|]. rewrite lookup_take by lia. done.
  Qed.

  Lemma own_body ins i c j : http ends parse ins !! i = Some (HAnswer c (Some j)) ->
    (forall k, http ends parse ins !! k = Some (HFailed c) -> (k < i)%nat ->
       received c (take k (http ends parse ins)) = []) ->
    parse (body c (take i (http ends parse ins))) = Some j.
  Proof.
    intros H F. rewrite body_received; [by apply truthful in H as [H _]| |].
    - apply always_take, run_inv.
    - intros k [Hk Hlt]%lookup_take_Some. rewrite take_take, Nat.min_l by lia. by apply F.
  Qed.
End http.
