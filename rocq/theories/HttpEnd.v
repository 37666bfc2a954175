(** Proofs for property C94: every call is answered in the end, what a response becomes, and
    the endpoints that are used. *)
From stdpp Require Import base option list gmap fin_maps.
From Coq Require Import NArith Lia.
From Verif Require Import Base HttpModel HttpSpec HttpProofs.
Open Scope N_scope.

Section http.
  Context {J : Type} (ends : N) (parse : bytes -> option J).
  Implicit Types (h g : list (hevent J)) (s : hst J).
  Notation run ins := (fold_left (http_step ends parse) ins http0).
  Notation inv s := (hinv ends parse s).

  (** ** Every call is answered in the end *)

  Record full s : Prop := {
    fu_call : forall c, HCall c ∈ hs_hist s -> (c < hs_next s)%nat;
    fu_live : hs_stop s = false -> forall c, (c < hs_next s)%nat ->
      (exists x t, hs_tf s !! x = Some t /\ tf_id t = c) \/ answers c (hs_hist s) <> [];
    fu_end : hs_stop s = true -> forall c, (c < hs_next s)%nat -> answers c (hs_hist s) <> []
  }.

  Lemma answers_more c h g : answers c h <> [] -> answers c (h ++ g) <> [].
  Proof. rewrite answers_app. by destruct (answers c h). Qed.
  Lemma answers_hit c h r g : answers c (h ++ HAnswer c r :: g) <> [].
  Proof. rewrite answers_app. unfold answers at 2. simpl. rewrite Nat.eqb_refl. by destruct (answers c h). Qed.

  Lemma start_full s x e : full s -> hs_stop s = false -> hs_tf s !! x = None ->
    full (start s x e true) /\ hs_stop (start s x e true) = false.
  Proof.
    intros [C L E] St Hx. unfold start, h_emit. simpl. split; [|done]. constructor; simpl.
    - intros c Hc. rewrite <- (assoc_L (++)) in Hc. apply elem_of_app in Hc as [Hc|Hc].
      + specialize (C _ Hc). lia.
      + simpl in Hc. apply elem_of_cons in Hc as [[= ->]|Hc]; [lia|].
        by apply elem_of_list_singleton in Hc.
    - intros _ c Hc. destruct (decide (c = hs_next s)) as [->|Hne].
      + left. exists x, (Tf (hs_next s) []). by rewrite lookup_insert.
      + destruct (L St c) as [(y & t & Hy & Ht)|Ha]; [lia| |].
        * left. exists y, t. rewrite lookup_insert_ne; [done|]. intros ->. congruence.
        * right. by apply answers_more, answers_more.
    - congruence.
  Qed.

  Lemma call_full s : ends <> 0 -> inv s -> full s -> hs_stop s = false ->
    full (call ends s true) /\ hs_stop (call ends s true) = false.
  Proof.
    intros E0 I [C L E] St. pose proof (proj2 I St) as Lv. unfold call. rewrite St.
    destruct (hs_free s) as [|x free] eqn:Hf.
    - rewrite (proj2 (N.eqb_neq _ _) E0). apply start_full; [|done|].
      + constructor; simpl; [done|by intros _; apply L|done].
      + simpl. destruct (hs_tf s !! length (hs_urls s)) as [t|] eqn:Hx; [|done].
        destruct (lv_tf _ s Lv _ _ Hx) as (_ & ? & _). lia.
    - apply start_full; [|done|].
      + constructor; simpl; [done|by intros _; apply L|done].
      + simpl. destruct (hs_tf s !! x) as [t|] eqn:Hx; [|done].
        destruct (lv_tf _ s Lv _ _ Hx) as (_ & _ & H). rewrite Hf in H. destruct H. left.
  Qed.

  Lemma calls_full again : Forall (eq true) again -> forall s, ends <> 0 -> inv s -> full s ->
    hs_stop s = false ->
    full (fold_left (call ends) again s) /\ hs_stop (fold_left (call ends) again s) = false.
  Proof.
    induction 1 as [|a again <- _ IH]; intros s E0 I F St; [done|]. simpl.
    destruct (call_full s E0 I F St) as [F' St']. apply IH; [done| |done..]. by apply call_inv.
  Qed.

  (** A step of the message loop in which the transfer is finished. *)
  Definition finish s (x : nat) (t : transfer) (m : hmsg) : hst J :=
    Hst (delete x (hs_tf s)) (hs_free s) (hs_urls s) (hs_idx s) (hs_next s) (hs_stop s)
      (hs_hist s ++ (match m with MDone code => [HDone (tf_id t) code] | _ => [] end)
         ++ [HAnswer (tf_id t) (result parse m (tf_data t))]).

  Lemma finish_inv s x t m : inv s -> hs_stop s = false -> hs_tf s !! x = Some t -> m <> MError ->
    inv (finish s x t m).
  Proof.
    intros I St Hx Hm. pose proof (message_inv ends parse s x m [] true true I St) as [A _].
    unfold message in A. rewrite Hx in A. pose proof (proj2 I St) as L.
    split.
    - destruct m; [|done|]; simpl in A; rewrite St in A; exact A.
    - intros _. apply (drop_live ends s x t); [done..|]. intros c Hc. apply Forall_app.
      split; [destruct m; repeat constructor|]. apply Forall_singleton. simpl. done.
  Qed.

  Lemma finish_full s x t m : full s -> hs_stop s = false -> hs_tf s !! x = Some t -> m <> MError ->
    full (finish s x t m).
  Proof.
    intros [C L E] St Hx Hm. constructor; simpl; [| |congruence].
    - intros c Hc. apply elem_of_app in Hc as [Hc|Hc]; [by apply C|].
      apply elem_of_app in Hc as [Hc|Hc]; [|by apply elem_of_list_singleton in Hc].
      destruct m; [by apply elem_of_list_singleton in Hc|done|by apply elem_of_nil in Hc].
    - intros _ c Hc. destruct (L St c Hc) as [(y & u & Hy & Hu)|Ha].
      + destruct (decide (y = x)) as [->|Hne].
        * right. rewrite (assoc_L (++)). rewrite Hx in Hy. injection Hy as <-. subst c.
          apply answers_hit.
        * left. exists y, u. by rewrite lookup_delete_ne.
      + right. by apply answers_more.
  Qed.

  Lemma message_full s x m again : ends <> 0 -> Forall (eq true) again -> inv s -> full s ->
    hs_stop s = false -> full (message ends parse s x m again true true).
  Proof.
    intros E0 Ag I F St. unfold message. destruct (hs_tf s !! x) as [t|] eqn:Hx; [|done].
    assert (Fin : m <> MError ->
      let s2 := fold_left (call ends) again (finish s x t m) in
      full (if hs_stop s2 then s2 else
        Hst (hs_tf s2) (hs_free s2 ++ [x]) (hs_urls s2) (hs_idx s2) (hs_next s2) (hs_stop s2)
          (hs_hist s2))).
    { intros Hm s2. destruct (calls_full again Ag (finish s x t m) E0) as [[C L E] S2].
      - by apply finish_inv.
      - by apply finish_full.
      - done.
      - fold s2 in C, L, E, S2. rewrite S2. constructor; simpl; [done| |done].
        intros _. by apply L. }
    destruct m as [code| |].
    - by apply Fin.
    - simpl. destruct F as [C L E]. constructor; simpl.
      + intros c Hc. apply elem_of_app in Hc as [Hc|Hc]; [by apply C|].
        apply elem_of_cons in Hc as [Hc|Hc]; [done|]. by apply elem_of_list_singleton in Hc.
      + intros _ c Hc. destruct (L St c Hc) as [?|?]; [by left|right; by apply answers_more].
      + congruence.
    - by apply Fin.
  Qed.

  Lemma nones_answers c l h : c ∈ l ->
    answers c (h ++ map (fun c => HAnswer c None) l) <> [].
  Proof.
    intros (l1 & l2 & ->)%elem_of_list_split. rewrite map_app, (assoc_L (++)). simpl.
    apply answers_hit.
  Qed.

  Lemma step_full s i : ends <> 0 -> adds i -> inv s -> full s -> full (http_step ends parse s i).
  Proof.
    intros E0 Ai I F. unfold http_step. destruct (hs_stop s) eqn:St; [done|].
    destruct i as [add|x b|x m again rm add|rm]; simpl in Ai.
    - subst add. by apply call_full.
    - unfold write_data. destruct (hs_tf s !! x) as [t|] eqn:Hx; [|done].
      destruct F as [C L E]. constructor; simpl; [| |congruence].
      + intros c Hc. apply elem_of_app in Hc as [Hc|Hc]; [by apply C|].
        by apply elem_of_list_singleton in Hc.
      + intros _ c Hc. destruct (L St c Hc) as [(y & u & Hy & Hu)|Ha];
          [left|right; by apply answers_more].
        destruct (decide (y = x)) as [->|Hne].
        * exists x. eexists. rewrite lookup_insert. split; [done|]. simpl. congruence.
        * exists y, u. by rewrite lookup_insert_ne.
    - destruct Ai as (-> & -> & Ag). by apply message_full.
    - subst rm. unfold destroy. simpl. destruct F as [C L E]. constructor; simpl; [|done|].
      + intros c Hc. apply elem_of_app in Hc as [Hc|Hc]; [by apply C|].
        by apply elem_of_list_fmap in Hc as (? & ? & _).
      + intros _ c Hc. destruct (L St c Hc) as [(y & u & Hy & <-)|Ha]; [|by apply answers_more].
        rewrite <- (map_map (fun p : nat * transfer => tf_id p.2) (fun c => HAnswer c None)).
        apply nones_answers. apply elem_of_list_fmap. exists (y, u). split; [done|].
        by apply elem_of_map_to_list.
  Qed.

  Lemma run_full ins : ends <> 0 -> Forall adds ins -> full (run ins).
  Proof.
    intros E0. induction ins as [|i ins IH] using rev_ind; intros A.
    - constructor; simpl; [by intros c ?%elem_of_nil|lia|done].
    - apply Forall_app in A as [A1 A2]. rewrite fold_left_app. simpl.
      apply step_full; [done|by inversion A2|apply run_inv|by apply IH].
  Qed.

  Lemma all_answered ins c : ends <> 0 -> Forall adds ins ->
    HCall c ∈ http ends parse (ins ++ [IDestroy true]) ->
    length (answers c (http ends parse (ins ++ [IDestroy true]))) = 1%nat.
  Proof.
    intros E0 A Hc. pose proof (once ends parse (ins ++ [IDestroy true]) c) as H1.
    assert (F : full (run (ins ++ [IDestroy true]))).
    { apply run_full; [done|]. apply Forall_app. split; [done|]. by apply Forall_singleton. }
    assert (S : hs_stop (run (ins ++ [IDestroy true])) = true).
    { rewrite fold_left_app. simpl. generalize (run ins) as s0. intros s0. unfold http_step.
      destruct (hs_stop s0) eqn:E; [exact E|done]. }
    pose proof (fu_end _ F S c (fu_call _ F c Hc)) as H2. unfold http in *.
    destruct (answers c _); [done|]. simpl in *. lia.
  Qed.

  (** ** What a response becomes *)

  Definition delivered h : Prop := forall i c code, h !! i = Some (HDone c code) ->
    h !! S i = Some (HAnswer c (if code / 100 =? 2 then parse (received c (take i h)) else None)).

  Lemma delivered_app h g : delivered h -> (forall c code, HDone c code ∉ g) -> delivered (h ++ g).
  Proof.
    intros D G i c code [H|[_ H]]%lookup_app_Some.
    - pose proof (D _ _ _ H) as H'. pose proof (lookup_lt_Some _ _ _ H).
      rewrite (lookup_app_l_Some _ _ _ _ H'), take_app_le by lia. done.
    - destruct (G c code). by eapply elem_of_list_lookup_2.
  Qed.

  Lemma call_delivered s add : delivered (hs_hist s) -> delivered (hs_hist (call ends s add)).
  Proof.
    intros D. unfold call, start, h_emit, h_stop. repeat case_match; simpl; try done;
      rewrite <- ?(assoc_L (++)); apply delivered_app; try done; intros c code; simpl;
      rewrite ?elem_of_cons, elem_of_nil; intuition congruence.
  Qed.
  Lemma calls_delivered again : forall s, delivered (hs_hist s) ->
    delivered (hs_hist (fold_left (call ends) again s)).
  Proof. induction again as [|a again IH]; intros s D; [done|]. by apply IH, call_delivered. Qed.

  Lemma message_delivered s x m again rm add : inv s -> hs_stop s = false ->
    delivered (hs_hist s) -> delivered (hs_hist (message ends parse s x m again rm add)).
  Proof.
    intros I St D. unfold message, h_emit. destruct (hs_tf s !! x) as [t|] eqn:Hx; [|done].
    destruct (lv_open _ s (proj2 I St) _ _ Hx) as (_ & Hd & _).
    assert (D1 : m <> MError -> delivered (hs_hist (finish s x t m))).
    { intros Hm. simpl. destruct m as [code| |]; [|done|].
      - intros i c code' [H|[Hi H]]%lookup_app_Some.
        + pose proof (D _ _ _ H) as H'. pose proof (lookup_lt_Some _ _ _ H).
          rewrite (lookup_app_l_Some _ _ _ _ H'), take_app_le by lia. done.
        + destruct (i - length (hs_hist s))%nat as [|[|k]] eqn:Ek; simpl in H; try done.
          injection H as <- <-. rewrite lookup_app_r by lia.
          replace (S i - length (hs_hist s))%nat with 1%nat by lia. simpl.
          replace i with (length (hs_hist s)) by lia. by rewrite take_app, Hd.
      - apply delivered_app; [done|]. intros c code. by intros ?%elem_of_list_singleton. }
    assert (D2 : m <> MError -> forall b : bool,
      delivered (hs_hist (fold_left (call ends) again (finish s x t m)) ++ (if b then [HPump false] else []))).
    { intros Hm b. apply delivered_app; [by apply calls_delivered, D1|].
      intros c code. destruct b; [by intros ?%elem_of_list_singleton|by intros ?%elem_of_nil]. }
    destruct m as [code| |].
    - specialize (D2 ltac:(done)). pose proof (D2 false) as D3. rewrite app_nil_r in D3.
      case_match; [exact D3|]. destruct rm; [exact D3|exact (D2 true)].
    - destruct (rm && add); simpl; (apply delivered_app; [done|]); intros c code;
        rewrite ?elem_of_cons, elem_of_nil; intuition congruence.
    - specialize (D2 ltac:(done)). pose proof (D2 false) as D3. rewrite app_nil_r in D3.
      case_match; [exact D3|]. destruct rm; [exact D3|exact (D2 true)].
  Qed.

  Lemma run_delivered ins : delivered (http ends parse ins).
  Proof.
    unfold http. induction ins as [|i ins IH] using rev_ind; [done|].
    rewrite fold_left_app. simpl. pose proof (run_inv ends parse ins) as I.
    revert IH I. generalize (run ins) as s. intros s IH I. unfold http_step.
    destruct (hs_stop s) eqn:St; [done|]. destruct i as [add|x b|x m again rm add|rm].
    - by apply call_delivered.
    - unfold write_data. case_match; [|done]. apply delivered_app; [done|].
      intros c code. by intros ?%elem_of_list_singleton.
    - by apply message_delivered.
    - unfold destroy, h_stop. case_match; simpl; (apply delivered_app; [done|]); intros c code.
      + by intros (? & ? & _)%elem_of_list_fmap.
      + by intros ?%elem_of_list_singleton.
  Qed.

  (** ** Endpoints *)

  Lemma undefined_call s add : ends <> 0 -> HUndefined ∉ hs_hist s ->
    HUndefined ∉ hs_hist (call ends s add).
  Proof.
    intros E0 H. unfold call, start, h_emit, h_stop. rewrite (proj2 (N.eqb_neq _ _) E0).
    repeat case_match; simpl; rewrite ?elem_of_app, ?elem_of_list_singleton; intuition congruence.
  Qed.
  Lemma undefined_calls again : forall s, ends <> 0 -> HUndefined ∉ hs_hist s ->
    HUndefined ∉ hs_hist (fold_left (call ends) again s).
  Proof.
    induction again as [|a again IH]; intros s E0 H; [done|]. by apply IH, undefined_call.
  Qed.
  Lemma defined ins : ends <> 0 -> HUndefined ∉ http ends parse ins.
  Proof.
    intros E0. unfold http. induction ins as [|i ins IH] using rev_ind; [by intros ?%elem_of_nil|].
    rewrite fold_left_app. simpl. revert IH. generalize (run ins) as s. intros s IH.
    unfold http_step. destruct (hs_stop s); [done|]. destruct i as [add|x b|x m again rm add|rm].
    - by apply undefined_call.
    - unfold write_data. case_match; simpl; rewrite ?elem_of_app, ?elem_of_list_singleton;
        intuition congruence.
    - unfold message, h_emit. destruct (hs_tf s !! x) as [t|]; [|done].
      assert (F : forall m, HUndefined ∉ hs_hist (fold_left (call ends) again (finish s x t m))).
      { intros m'. apply undefined_calls; [done|]. simpl. destruct m';
          rewrite !elem_of_app, ?elem_of_nil, !elem_of_list_singleton; intuition congruence. }
      destruct m as [code| |].
      + specialize (F (MDone code)). unfold finish in F.
        repeat case_match; simpl; rewrite ?elem_of_app, ?elem_of_list_singleton;
          intuition congruence.
      + case_match; simpl; rewrite !elem_of_app, !elem_of_cons, elem_of_nil; intuition congruence.
      + specialize (F MOther). unfold finish in F.
        repeat case_match; simpl; rewrite ?elem_of_app, ?elem_of_list_singleton;
          intuition congruence.
    - unfold destroy, h_stop. case_match; simpl; rewrite elem_of_app.
      + intros [?|(? & ? & _)%elem_of_list_fmap]; [by apply IH|done].
      + rewrite elem_of_list_singleton. intuition congruence.
  Qed.

  Lemma used_app h g : used (h ++ g) = used h ++ used g.
  Proof. apply omap_app. Qed.

  Lemma map_seq_end (f : nat -> N) n : map f (seq 0 (S n)) = map f (seq 0 n) ++ [f n].
  Proof. by rewrite seq_S, map_app. Qed.

  Lemma burst_state n : ends <> 0 ->
    let s := run (replicate n (ICall true)) in
    used (hs_hist s) = map (fun i => N.of_nat i mod ends) (seq 0 n) /\
    hs_stop s = false /\ hs_free s = [] /\ hs_idx s = N.of_nat n mod ends.
  Proof.
    intros E0. induction n as [|n IH].
    - simpl. split_and!; try done.
    - rewrite replicate_S_end, fold_left_app. simpl. revert IH.
      generalize (run (replicate n (ICall true))) as s. intros s (U & St & F & Ix).
      unfold http_step. rewrite St. unfold call. rewrite St, F.
      rewrite (proj2 (N.eqb_neq _ _) E0). unfold start, h_emit. simpl.
      split_and!; [|done|done|].
      + rewrite !used_app, U, Ix. unfold used. simpl. rewrite app_nil_r.
        symmetry. exact (map_seq_end (fun i => N.of_nat i mod ends) n).
      + rewrite Ix. change (N.pos (Pos.of_succ_nat n)) with (N.of_nat (S n)). rewrite Nat2N.inj_succ, <- N.add_1_r. by rewrite N.add_mod_idemp_l.
  Qed.
  Lemma burst n : ends <> 0 ->
    used (http ends parse (replicate n (ICall true))) = map (fun i => N.of_nat i mod ends) (seq 0 n).
  Proof. intros E0. by apply burst_state. Qed.

  (** One call after the other. *)
  Notation turn := [ICall true; IMsg 0 (MDone 200) [] true true].

  Lemma turns_state n : ends <> 0 -> exists idx next h,
    run (concat (replicate (S n) turn)) = Hst ∅ [O] [0] idx next false h /\
    used h = replicate (S n) 0.
  Proof.
    intros E0. induction n as [|n IH].
    - simpl. unfold http_step. simpl. unfold call. simpl.
      rewrite (proj2 (N.eqb_neq _ _) E0). unfold start, h_emit. simpl. unfold message. simpl.
      rewrite delete_insert by apply lookup_empty. eexists _, _, _. split; [reflexivity|done].
    - rewrite replicate_S_end, concat_app, fold_left_app.
      destruct IH as (idx & next & h & -> & U). simpl. unfold http_step. simpl. unfold message.
      simpl. rewrite lookup_insert. simpl. rewrite delete_insert by apply lookup_empty.
      eexists _, _, _. split; [reflexivity|]. rewrite !used_app, U. simpl. rewrite !app_nil_r.
      unfold used. simpl. by rewrite (replicate_cons_app n).
  Qed.
  Lemma turns n : ends <> 0 -> used (http ends parse (concat (replicate n turn))) = replicate n 0.
  Proof.
    intros E0. destruct n as [|n]; [done|]. unfold http.
    destruct (turns_state n E0) as (idx & next & h & -> & U). exact U.
  Qed.

  (** A request that fails is sent again, for ever. *)
  Lemma sent_app c h g : sent c (h ++ g) = (sent c h + sent c g)%nat.
  Proof. unfold sent. by rewrite omap_app, app_length. Qed.
  Lemma failing_state n : ends <> 0 -> exists idx h,
    run (ICall true :: replicate n (IMsg 0 MError [] true true)) =
      Hst {[O := Tf 0 []]} [] [0] idx 1 false h /\
    sent 0 h = S n /\ answers 0 h = [] /\ used h = replicate (S n) 0.
  Proof.
    intros E0. induction n as [|n IH].
    - simpl. unfold http_step. simpl. unfold call. simpl.
      rewrite (proj2 (N.eqb_neq _ _) E0). unfold start, h_emit. simpl.
      eexists _, _. split; [reflexivity|done].
    - rewrite replicate_S_end, app_comm_cons, fold_left_app.
      destruct IH as (idx & h & -> & S1 & A1 & U1). simpl. unfold http_step. simpl.
      unfold message. simpl. rewrite lookup_singleton. simpl. unfold h_emit. simpl.
      eexists _, _. split; [reflexivity|]. rewrite sent_app, answers_app, used_app, S1, A1, U1.
      split_and!; [unfold sent; simpl; lia|done|]. unfold used. simpl.
      by rewrite (replicate_cons_app n).
  Qed.
  Lemma failing n : ends <> 0 ->
    let h := http ends parse (ICall true :: replicate n (IMsg 0 MError [] true true)) in
    sent 0 h = S n /\ answers 0 h = [] /\ used h = replicate (S n) 0.
  Proof.
    intros E0 h. unfold h, http. destruct (failing_state n E0) as (idx & g & -> & S1 & A1 & U1). done.
  Qed.
End http.
