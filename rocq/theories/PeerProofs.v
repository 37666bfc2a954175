(** Proofs about a peer that keeps its connection up (C73). *)
From stdpp Require Import base option list.
From Coq Require Import NArith Lia.
From Verif Require Import Base PeerModel PeerSpec.

(** * The invariant *)

(** The step of close() that is under way, by whichever thread. *)
Definition closing_at (s : peer) : option closing :=
  match p_keeper s, p_shutter s with
  | KClose c, _ | KGive c, _ => Some c
  | KDone, XClose c => Some c
  | _, _ => None
  end.

(** What holds at each step of close(). *)
Definition close_facts (s : peer) (c : closing) : Prop :=
  (c <> CRunning -> p_running s = false) /\
  (c <> CRunning -> c <> CDisconnect -> p_sock s = None) /\
  ((c = CJoinSend \/ c = CJoinRecv \/ c = CReset) -> p_sender s = SPop ->
     p_wake s = true \/ p_queue s <> []) /\
  ((c = CJoinRecv \/ c = CReset) -> p_sender s = SEnd) /\
  (c = CReset -> p_receiver s = REnd).

(** Nothing of the peer runs. *)
Definition ended (s : peer) : Prop :=
  p_running s = false /\ p_sender s = SEnd /\ p_receiver s = REnd.

(** The reconnecting thread is busy making a new connection. *)
Definition restarting (k : keeper) : Prop :=
  match k with KGo | KClose _ | KConnect | KAfter => True | _ => False end.

Definition flight (s : peer) : list bytes :=
  match p_sender s with SSend p => [p] | _ => [] end.

Record inv (s : peer) : Prop := {
  j_assert : p_assert s = false;
  j_close : forall c, closing_at s = Some c -> close_facts s c;
  j_shut_x : p_shutter s <> XOff -> p_shut s = true;
  j_done_x : (exists c, p_shutter s = XClose c) \/ p_shutter s = XDone -> p_keeper s = KDone;
  j_ended_x : p_shutter s = XDone -> ended s /\ p_sock s = None;
  j_again : p_keeper s = KConnect \/ p_keeper s = KAfter ->
    ended s /\ (p_wake s = true -> p_queue s <> []);
  j_give : (exists c, p_keeper s = KGive c) \/ p_keeper s = KClear -> p_attempt s = false /\ p_shut s = true;
  j_clear : p_keeper s = KClear -> ended s /\ p_sock s = None;
  j_done : p_keeper s = KDone -> p_shut s = true /\
    (p_shutter s = XOff -> p_attempt s = false /\ ended s /\ p_sock s = None);
  j_shut : p_shut s = true -> p_shutter s = XOff ->
    (exists c, p_keeper s = KGive c) \/ p_keeper s = KClear \/ p_keeper s = KDone;
  j_running : p_running s = true -> p_wake s = true -> p_queue s <> [];
  j_stopped : p_running s = false -> p_shut s = false ->
    (exists c, p_keeper s = KClose c) \/ p_keeper s = KConnect \/ p_keeper s = KAfter;
  j_sender : p_shut s = false -> p_sender s = SNotify \/ p_sender s = SEnd ->
    p_flag s = true \/ restarting (p_keeper s);
  j_receiver : p_shut s = false -> p_receiver s = RNotify \/ p_receiver s = REnd ->
    p_flag s = true \/ restarting (p_keeper s);
  j_checked : p_keeper s = KChecked -> p_flag s = false;
  j_asleep : p_keeper s = KAsleep -> p_flag s = true -> p_sender s = SNotify \/ p_receiver s = RNotify;
  j_order : map snd (p_sent s) ++ flight s ++ p_queue s `sublist_of` p_pushed s;
  j_conn : forall c, p_sock s = Some c -> (c < length (p_conns s))%nat /\
    Forall (fun x => (fst x <= c)%nat) (p_sent s);
  j_conns : Forall (fun x => (fst x < length (p_conns s))%nat) (p_sent s);
  j_sorted : by_connection (p_sent s);
  j_wait : p_keeper s = KCheck \/ p_keeper s = KChecked \/ p_keeper s = KAsleep ->
    p_running s = true /\ (p_receiver s = RNotify \/ p_receiver s = REnd -> p_flag s = true)
}.

Lemma init_inv a u : inv (peer_init a u).
Proof.
  unfold peer_init. split; cbn; try easy.
  - intros [[c H]|H]; discriminate H.
  - intros [H|H]; discriminate H.
  - intros [[c H]|H]; discriminate H.
  - intros _ [H|H]; discriminate H.
  - intros _ [H|H]; discriminate H.
  - destruct u; [|easy]. intros c [= <-]. cbn. split; [lia|easy].
  - intros [H|[H|H]]; discriminate H.
Qed.

Ltac use_inv I :=
  destruct I as [IA ICL ISX IDX IEX IAG IGV ICR IDN ISH IRU IST ISE IRE ICH IAS IOR ICN ICS ISO IWT];
  cbn in IA, ISX, IDX, IEX, IAG, IGV, ICR, IDN, ISH, IRU, IST, ISE, IRE, ICH, IAS, IOR, ICN, ICS, ISO, IWT.

Ltac easy_case :=
  solve [cbn; intros;
  repeat match goal with
  | H : _ \/ _ |- _ => destruct H
  | H : exists _, _ |- _ => destruct H
  | H : _ /\ _ |- _ => destruct H
  end; try congruence; try tauto; eauto].

Ltac asleep_case :=
  match goal with
  | A : _ = KAsleep -> _ |- _ = KAsleep -> _ =>
      let H1 := fresh in let H2 := fresh in let X := fresh in
      intros H1 H2; destruct (A H1 H2) as [X|X]; solve [discriminate X | now left | now right]
  | A : _ \/ _ \/ _ = KAsleep -> _ |- _ \/ _ \/ _ = KAsleep -> _ =>
      let H := fresh in let W := fresh in let V := fresh in let X := fresh in
      intros H; (destruct (A H) as [W V] || destruct (A ltac:(tauto)) as [W V]);
      split; [exact W|]; solve [intros [X|X]; discriminate X | intros X; apply V; tauto | easy]
  end.

Lemma api_inv s pkt s' : inv s -> p_step s (PApi pkt) = Some s' -> inv s'.
Proof.
  intros I E. cbn [p_step] in E. destruct (p_shut s) eqn:SH; injection E as <-; [exact I|].
  destruct s as [at_ sh ru fl qu wk so co se re ke xs pu sn ass]. cbn in SH. subst sh.
  use_inv I. split; cbn; try assumption.
  - intros c H. specialize (ICL c H). unfold close_facts in *. cbn in *.
    destruct ICL as (C1 & C2 & C3 & C4 & C5). split_and!; try assumption.
    intros _ _. now left.
  - intros H. destruct (IAG H) as [H1 H2]. split; [exact H1|]. intros _ X. now apply app_eq_nil in X as [_ X].
  - intros _ _ X. now apply app_eq_nil in X as [_ X].
  - rewrite !app_assoc. apply sublist_app; [|easy]. rewrite <- app_assoc. exact IOR.
Qed.

Lemma break_inv s c s' : inv s -> p_step s (PBreak c) = Some s' -> inv s'.
Proof.
  intros I E. cbn [p_step] in E. destruct (p_conns s !! c) as [[]|]; try discriminate E.
  injection E as <-. destruct s as [at_ sh ru fl qu wk so co se re ke xs pu sn ass].
  use_inv I. split; cbn; try assumption.
  - intros x H. rewrite insert_length. exact (ICN x H).
  - now rewrite insert_length.
Qed.

Lemma arrive_inv s s' : inv s -> p_step s PArrive = Some s' -> inv s'.
Proof.
  intros I E. cbn [p_step] in E. unfold arrive in E.
  destruct s as [at_ sh ru fl qu wk so co se re ke xs pu sn ass]. cbn in E.
  destruct re; try discriminate E. destruct (alive _); [|discriminate E]. injection E as <-.
  use_inv I. split; cbn; try assumption.
  - intros c H. specialize (ICL c H). unfold close_facts in *. cbn in *.
    destruct ICL as (C1 & C2 & C3 & C4 & C5). split_and!; try assumption.
    intros X. specialize (C5 X). discriminate C5.
  - intros H. destruct (IEX H) as [(_ & _ & X) _]. discriminate X.
  - intros H. destruct (IAG H) as [(_ & _ & X) _]. discriminate X.
  - intros H. destruct (ICR H) as [(_ & _ & X) _]. discriminate X.
  - intros H. destruct (IDN H) as [H1 H2]. split; [exact H1|]. intros X.
    destruct (H2 X) as (_ & (_ & _ & Y) & _). discriminate Y.
  - intros _ [H|H]; discriminate H.
  - intros H1 H2. destruct (IAS H1 H2) as [X|X]; [now left|discriminate X].
  - intros H. destruct (IWT H) as [W _]. split; [exact W|]. intros [X|X]; discriminate X.
Qed.

Lemma spurious_inv s s' : inv s -> p_step s PSpurious = Some s' -> inv s'.
Proof.
  intros I E. cbn [p_step] in E.
  destruct s as [at_ sh ru fl qu wk so co se re ke xs pu sn ass]. cbn in E.
  destruct ke; try discriminate E. injection E as <-.
  use_inv I. split; cbn; try assumption; try easy_case; try asleep_case.
  - intros H. specialize (IDX H). discriminate IDX.
  - intros H1 H2. destruct (ISH H1 H2) as [[c X]|[X|X]]; discriminate X.
  - intros H1 H2. destruct (IST H1 H2) as [[c X]|[X|X]]; discriminate X.
Qed.

Lemma receiver_inv s s' : inv s -> p_step s PReceiver = Some s' -> inv s'.
Proof.
  intros I E. cbn [p_step] in E. unfold receiver_step in E.
  destruct s as [at_ sh ru fl qu wk so co se re ke xs pu sn ass]. cbn in E.
  assert (NE : re <> REnd) by (intros ->; discriminate E).
  use_inv I.
  assert (NC : forall c, closing_at (Peer at_ sh ru fl qu wk so co se re ke xs pu sn ass) = Some c -> c <> CReset).
  { intros c H ->. destruct (ICL _ H) as (_ & _ & _ & _ & X). now apply NE, X. }
  assert (NX : xs <> XDone) by (intros H; destruct (IEX H) as [(_ & _ & X) _]; easy).
  assert (NA : ~ (ke = KConnect \/ ke = KAfter)) by (intros H; destruct (IAG H) as [(_ & _ & X) _]; easy).
  assert (NK : ke <> KClear) by (intros H; destruct (ICR H) as [(_ & _ & X) _]; easy).
  assert (ND : ke = KDone -> xs <> XOff).
  { intros H X. destruct (IDN H) as [_ Y]. destruct (Y X) as (_ & (_ & _ & Z) & _). easy. }
  destruct re as [| | | |]; cbn in E; try easy.
  - (* RTop *)
    injection E as <-. split; cbn; try assumption; try easy_case; try asleep_case.
    + intros c H. specialize (ICL c H). pose proof (NC c H). unfold close_facts in *. cbn in *.
      destruct ICL as (C1 & C2 & C3 & C4 & C5). split_and!; try assumption. easy.
    + intros H1 H2. destruct ru; [destruct H2; discriminate|]. right.
      destruct (IST eq_refl H1) as [[c ->]|[->| ->]]; exact Logic.I.
    + intros H. destruct (IWT H) as [W _]. rewrite W. split; [easy|]. intros [X|X]; discriminate X.
  - (* RRead *)
    destruct (alive _); [discriminate E|]. injection E as <-. split; cbn; try assumption; try easy_case; try asleep_case.
    intros c H. specialize (ICL c H). pose proof (NC c H). unfold close_facts in *. cbn in *.
    destruct ICL as (C1 & C2 & C3 & C4 & C5). split_and!; try assumption. easy.
  - (* RFail *)
    destruct (locked _) eqn:LK; [discriminate E|]. injection E as <-.
    split; cbn; try assumption; try easy_case; try asleep_case.
    + intros c H. specialize (ICL c H). pose proof (NC c H). unfold close_facts in *. cbn in *.
      destruct ICL as (C1 & C2 & C3 & C4 & C5). split_and!; try assumption. easy.
    + intros ->. discriminate LK.
  - (* RNotify *)
    injection E as <-. unfold notify. cbn.
    assert (K : ke = KAsleep \/ ke <> KAsleep) by (destruct ke; (now left) || (now right)).
    destruct K as [->|K].
    + cbn. split; cbn; try assumption; try easy_case; try asleep_case.
      * intros H. specialize (IDX H). discriminate IDX.
      * intros H1 H2. destruct (ISH H1 H2) as [[c X]|[X|X]]; discriminate X.
      * intros H1 H2. destruct (IST H1 H2) as [[c X]|[X|X]]; discriminate X.
    + assert (G : inv (set_receiver (Peer at_ sh ru fl qu wk so co se RNotify ke xs pu sn ass) REnd)).
      { split; cbn; try assumption; try easy_case; try asleep_case.
        intros c H. specialize (ICL c H). pose proof (NC c H). unfold close_facts in *. cbn in *.
        destruct ICL as (C1 & C2 & C3 & C4 & C5). split_and!; try assumption; easy. }
      destruct ke; easy.
Qed.

Lemma sender_inv s ok s' : inv s -> p_step s (PSender ok) = Some s' -> inv s'.
Proof.
  intros I E. cbn [p_step] in E. unfold sender_step in E.
  destruct s as [at_ sh ru fl qu wk so co se re ke xs pu sn ass]. cbn in E.
  assert (NE : se <> SEnd) by (intros ->; discriminate E).
  use_inv I.
  assert (NC : forall c, closing_at (Peer at_ sh ru fl qu wk so co se re ke xs pu sn ass) = Some c ->
    c <> CJoinRecv /\ c <> CReset).
  { intros c H. destruct (ICL _ H) as (_ & _ & _ & X & _). cbn in X.
    split; intros ->; apply NE, X; tauto. }
  assert (NX : xs <> XDone) by (intros H; destruct (IEX H) as [(_ & X & _) _]; easy).
  assert (NA : ~ (ke = KConnect \/ ke = KAfter)) by (intros H; destruct (IAG H) as [(_ & X & _) _]; easy).
  assert (NK : ke <> KClear) by (intros H; destruct (ICR H) as [(_ & X & _) _]; easy).
  assert (ND : ke = KDone -> xs <> XOff).
  { intros H X. destruct (IDN H) as [_ Y]. destruct (Y X) as (_ & (_ & Z & _) & _). easy. }
  (* close_facts that only the sender's move away from SPop or to SPop while running affects *)
  destruct se as [| |pkt| | |]; cbn in E; try easy.
  - (* STop *)
    injection E as <-. split; cbn; try assumption; try easy_case; try asleep_case.
    + intros c H. specialize (ICL c H). pose proof (NC c H). unfold close_facts in *. cbn in *.
      destruct ICL as (C1 & C2 & C3 & C4 & C5). split_and!; try assumption.
      * intros H1 H2. destruct ru; [|discriminate H2]. exfalso.
        assert (X : c <> CRunning) by (destruct H1 as [->|[->| ->]]; easy). now specialize (C1 X).
      * easy_case.
    + intros H1 H2. destruct ru; [destruct H2; discriminate|]. right.
      destruct (IST eq_refl H1) as [[c ->]|[->| ->]]; exact Logic.I.
    + destruct ru; exact IOR.
  - (* SPop *)
    destruct qu as [|pkt r].
    + destruct wk; [|discriminate E]. injection E as <-.
      destruct ru; [now destruct (IRU eq_refl eq_refl)|].
      split; cbn; try assumption; try easy_case; try asleep_case.
      * intros c H. specialize (ICL c H). pose proof (NC c H). unfold close_facts in *. cbn in *.
        destruct ICL as (C1 & C2 & C3 & C4 & C5). split_and!; try assumption; easy_case.
      * intros H1 H2. right. destruct (IST eq_refl H1) as [[c ->]|[->| ->]]; exact Logic.I.
    + injection E as <-. split; cbn; try assumption; try easy_case; try asleep_case.
      * intros c H. specialize (ICL c H). pose proof (NC c H). unfold close_facts in *. cbn in *.
        destruct ICL as (C1 & C2 & C3 & C4 & C5). split_and!; try assumption; easy_case.
      * intros _ H. destruct r; easy.
  - (* SSend *)
    destruct ok.
    + destruct so as [c0|]; [|discriminate E]. injection E as <-. split; cbn; try assumption; try easy_case; try asleep_case.
      * intros c H. specialize (ICL c H). pose proof (NC c H). unfold close_facts in *. cbn in *.
        destruct ICL as (C1 & C2 & C3 & C4 & C5). split_and!; try assumption; easy_case.
      * rewrite map_app. cbn. rewrite <- app_assoc. exact IOR.
      * intros c [= <-]. destruct (ICN c0 eq_refl) as [N1 N2]. split; [exact N1|].
        apply Forall_app. split; [exact N2|]. constructor; [cbn; lia|constructor].
      * destruct (ICN c0 eq_refl) as [N1 N2]. apply Forall_app. split; [exact ICS|].
        constructor; [exact N1|constructor].
      * destruct (ICN c0 eq_refl) as [N1 N2]. intros i j x y L X Y.
        apply lookup_app_Some in Y as [Y|[Y1 Y2]].
        -- rewrite lookup_app_l in X by (apply lookup_lt_Some in Y; lia). exact (ISO i j x y L X Y).
        -- destruct (j - length sn)%nat as [|k] eqn:J; [|discriminate Y2]. injection Y2 as <-.
           rewrite lookup_app_l in X by lia. rewrite Forall_lookup in N2. exact (N2 i x X).
    + assert (E' : (if alive (Peer at_ sh ru fl qu wk so co (SSend pkt) re ke xs pu sn ass) then None
                    else Some (set_sender (Peer at_ sh ru fl qu wk so co (SSend pkt) re ke xs pu sn ass) SFail))
                   = Some s') by (destruct so; exact E).
      destruct (alive _); [discriminate E'|]. injection E' as <-. split; cbn; try assumption; try easy_case; try asleep_case.
      * intros c H. specialize (ICL c H). pose proof (NC c H). unfold close_facts in *. cbn in *.
        destruct ICL as (C1 & C2 & C3 & C4 & C5). split_and!; try assumption; easy_case.
      * etransitivity; [|exact IOR]. apply sublist_app; [easy|]. now apply sublist_inserts_l.
  - (* SFail *)
    destruct (locked _) eqn:LK; [discriminate E|]. injection E as <-.
    split; cbn; try assumption; try easy_case; try asleep_case.
    + intros c H. specialize (ICL c H). pose proof (NC c H). unfold close_facts in *. cbn in *.
      destruct ICL as (C1 & C2 & C3 & C4 & C5). split_and!; try assumption; easy_case.
    + intros ->. discriminate LK.
  - (* SNotify *)
    injection E as <-. unfold notify. cbn.
    assert (K : ke = KAsleep \/ ke <> KAsleep) by (destruct ke; (now left) || (now right)).
    destruct K as [->|K].
    + cbn. split; cbn; try assumption; try easy_case; try asleep_case.
      * intros H. specialize (IDX H). discriminate IDX.
      * intros H1 H2. destruct (ISH H1 H2) as [[c X]|[X|X]]; discriminate X.
      * intros H1 H2. destruct (IST H1 H2) as [[c X]|[X|X]]; discriminate X.
    + assert (G : inv (set_sender (Peer at_ sh ru fl qu wk so co SNotify re ke xs pu sn ass) SEnd)).
      { split; cbn; try assumption; try easy_case; try asleep_case.
        intros c H. specialize (ICL c H). pose proof (NC c H). unfold close_facts in *. cbn in *.
        destruct ICL as (C1 & C2 & C3 & C4 & C5). split_and!; try assumption; easy_case. }
      destruct ke; easy.
Qed.

Ltac crush :=
  repeat match goal with
  | H : _ `sublist_of` _ |- _ => clear H
  | H : Forall _ _ |- _ => clear H
  | H : by_connection _ |- _ => clear H
  end;
  unfold close_facts, closing_at, ended, restarting in *; cbn in *; intros;
  repeat match goal with
  | H : ?a = ?b -> _ |- _ => let N := fresh in assert (N : a <> b) by discriminate; clear H N
  | H : (exists c, ?a = @?b c) -> _ |- _ =>
      let N := fresh in let X := fresh in assert (N : ~ (exists c, a = b c)) by (intros [? X]; discriminate X); clear H N
  | H : ?A \/ ?B -> ?C |- _ =>
      let N1 := fresh in let N2 := fresh in
      assert (N1 : A -> C) by (intros; apply H; now left); assert (N2 : B -> C) by (intros; apply H; now right); clear H
  | H : _ /\ _ |- _ => destruct H
  | H : _ \/ _ |- _ => destruct H
  | H : exists _, _ |- _ => destruct H
  | H : False |- _ => destruct H
  | H : Some ?a = Some ?b |- _ => injection H as H; try subst a; try subst b
  | H : ?a = ?b |- _ => discriminate H
  | H : ?x = ?x -> _ |- _ => specialize (H eq_refl)
  | H : ?A -> _, H' : ?A |- _ => specialize (H H')
  | H : ?x = _ |- _ => is_var x; subst x
  | H : _ = ?x |- _ => is_var x; subst x
  end;
  split_and?; intros;
  repeat match goal with H : _ \/ _ |- _ => destruct H end;
  try discriminate; try congruence; eauto 4.

Lemma disconnect_facts s : p_sock (disconnect s) = None /\
  length (p_conns (disconnect s)) = length (p_conns s) /\
  disconnect s = set_sock s None (p_conns (disconnect s)).
Proof.
  destruct s as [at_ sh ru fl qu wk so co se re ke xs pu sn ass]. unfold disconnect. cbn.
  destruct so as [c|]; cbn; [|easy]. now rewrite insert_length.
Qed.

Ltac rest_case :=
  match goal with
  | D2 : length _ = length _, ICS : Forall _ ?sn |- Forall _ ?sn => rewrite D2; exact ICS
  | IOR : map snd _ ++ _ `sublist_of` _ |- map snd _ ++ _ `sublist_of` _ =>
      etransitivity; [|exact IOR]; apply sublist_app; [easy|]; apply sublist_app; [easy|];
      apply sublist_nil_l
  | ICL : close_facts _ _ |- _ = true -> _ -> _ =>
      let X := fresh in let C := fresh in
      intros X _; destruct ICL as (C & _); cbn in C; rewrite C in X by easy; discriminate X
  end.

Lemma keeper_inv s ok s' : inv s -> p_step s (PKeeper ok) = Some s' -> inv s'.
Proof.
  intros I E. cbn [p_step] in E. unfold keeper_step, close_step in E.
  destruct (disconnect_facts s) as (D1 & D2 & D3). rewrite D3 in E.
  set (co' := p_conns (disconnect s)) in *. clearbody co'. clear D1 D3.
  assert (XS : p_shutter s = XOff \/ p_shutter s = XNotify \/ p_shutter s = XJoin).
  { destruct I as [_ _ _ X _ _ _ _ _ _ _ _ _ _ _ _ _ _ _ _ _].
    destruct (p_shutter s); try tauto; rewrite X in E by eauto; discriminate E. }
  destruct s as [at_ sh ru fl qu wk so co se re ke xs pu sn ass]. cbn in D2, XS.
  cbn [p_keeper p_shut p_flag p_attempt p_sender p_receiver p_queue] in E.
  destruct ke as [| | | | |c| | |c| |].
  - (* KTop *)
    use_inv I. destruct XS as [->|[->| ->]]; destruct sh; injection E as <-; split; cbn; try assumption; try asleep_case;
      try solve [intros _; split; [|intros X; destruct (IRE eq_refl X) as [Y|[]]; exact Y];
                 destruct ru; [easy|]; destruct (IST eq_refl eq_refl) as [[c X]|[X|X]]; discriminate X];
      try solve [crush].
  - (* KCheck *)
    use_inv I. destruct XS as [->|[->| ->]]; destruct fl, sh; cbn in E; injection E as <-; split; cbn; try assumption; try asleep_case; try solve [crush].
  - (* KChecked *)
    use_inv I. destruct XS as [->|[->| ->]]; injection E as <-; split; cbn; try assumption; try asleep_case; try solve [crush].
  - discriminate E.
  - (* KGo *)
    use_inv I. destruct XS as [->|[->| ->]]; destruct sh, at_; cbn in E; injection E as <-; split; cbn; try assumption; try asleep_case; try solve [crush].
  - (* KClose *)
    use_inv I. specialize (ICL c eq_refl).
    destruct XS as [->|[->| ->]]; destruct c; [| | |destruct se; try discriminate E|destruct re; try discriminate E| | | | |destruct se; try discriminate E|destruct re; try discriminate E| | | | |destruct se; try discriminate E|destruct re; try discriminate E|];
     cbn in E; injection E as <-; split; cbn; try assumption; try asleep_case; try solve [crush]; rest_case.
  - (* KConnect *)
    use_inv I. destruct (IAG (or_introl eq_refl)) as ((R1 & R2 & R3) & R4). cbn in R1, R2, R3. subst ru se re.
    destruct XS as [->|[->| ->]]; destruct sh; try destruct ok; injection E as <-; split; cbn; try assumption; try asleep_case; try solve [crush]; try rest_case.
    all: try (intros c [= <-]); rewrite app_length, D2; cbn.
    all: try (split; [lia|]); (eapply Forall_impl; [exact ICS|]; cbn; intros; lia).
  - (* KAfter *)
    use_inv I. destruct (IAG (or_intror eq_refl)) as ((R1 & R2 & R3) & R4). cbn in R1, R2, R3. subst ru se re.
    destruct XS as [->|[->| ->]]; destruct sh; injection E as <-; split; cbn; try assumption; try asleep_case; try solve [crush]; try rest_case.
  - (* KGive *)
    use_inv I. specialize (ICL c eq_refl). destruct (IGV (or_introl (ex_intro _ c eq_refl))) as [-> ->].
    destruct XS as [->|[->| ->]]; destruct c; [| | |destruct se; try discriminate E|destruct re; try discriminate E| | | | |destruct se; try discriminate E|destruct re; try discriminate E| | | | |destruct se; try discriminate E|destruct re; try discriminate E|];
     cbn in E; injection E as <-; split; cbn; try assumption; try asleep_case; try solve [crush]; try rest_case.
  - (* KClear *)
    use_inv I. destruct (IGV (or_intror eq_refl)) as [-> ->]. destruct (ICR eq_refl) as ((R1 & R2 & R3) & R4). cbn in R1, R2, R3. subst ru se re.
    destruct XS as [->|[->| ->]]; injection E as <-; split; cbn; try assumption; try asleep_case; try solve [crush]; try rest_case.
    all: try (rewrite app_nil_r; etransitivity; [|exact IOR]; now apply sublist_inserts_r).
    intros _. split; [easy|]. intros _. now split_and!.
  - discriminate E.
Qed.

Lemma shutter_inv s s' : inv s -> p_step s PShutdown = Some s' -> inv s'.
Proof.
  intros I E. cbn [p_step] in E. unfold shutter_step, close_step in E.
  destruct (disconnect_facts s) as (D1 & D2 & D3). rewrite D3 in E.
  set (co' := p_conns (disconnect s)) in *. clearbody co'. clear D1 D3.
  destruct s as [at_ sh ru fl qu wk so co se re ke xs pu sn ass]. cbn in D2.
  cbn [p_keeper p_shutter p_shut p_flag p_attempt p_sender p_receiver p_queue] in E.
  destruct xs as [| | |c|].
  - (* XOff *)
    use_inv I. injection E as <-. split; cbn; try assumption; try asleep_case; try solve [crush]; try rest_case.
    intros H. destruct (IGV H) as [H1 _]. now split.
  - (* XNotify *)
    use_inv I. injection E as <-. unfold notify. cbn.
    assert (K : ke = KAsleep \/ ke <> KAsleep) by (destruct ke; (now left) || (now right)).
    destruct K as [->|K].
    + split; cbn; try assumption; try asleep_case; try solve [crush]; try rest_case.
    + assert (G : inv (set_shutter (Peer at_ sh ru fl qu wk so co se re ke XNotify pu sn ass) XJoin)).
      { split; cbn; try assumption; try asleep_case; try solve [crush]. }
      destruct ke; easy.
  - (* XJoin *)
    use_inv I. destruct ke; try discriminate E.
    injection E as <-. split; cbn; try assumption; try asleep_case; try solve [crush]; try rest_case.
  - (* XClose *)
    use_inv I. rewrite (IDX (or_introl (ex_intro _ c eq_refl))) in *. specialize (ICL c eq_refl).
    destruct c; [| | |destruct se; try discriminate E|destruct re; try discriminate E|];
     cbn in E; injection E as <-; split; cbn; try assumption; try asleep_case; try solve [crush]; try rest_case.
  - discriminate E.
Qed.

Lemma step_inv s o s' : inv s -> p_step s o = Some s' -> inv s'.
Proof.
  intros I. destruct o; [exact (api_inv s pkt s' I)|exact (break_inv s c s' I)|exact (arrive_inv s s' I)|
    exact (spurious_inv s s' I)|exact (sender_inv s ok s' I)|exact (receiver_inv s s' I)|
    exact (keeper_inv s ok s' I)|exact (shutter_inv s s' I)].
Qed.

Lemma run_inv l : forall s s', inv s -> p_run s l = Some s' -> inv s'.
Proof.
  induction l as [|o l IH]; intros s s' I E; cbn in E; [now injection E as <-|].
  destruct (p_step s o) as [s1|] eqn:S; [|discriminate E]. exact (IH s1 s' (step_inv s o s1 I S) E).
Qed.

Lemma reach_inv a u l s : p_run (peer_init a u) l = Some s -> inv s.
Proof. apply run_inv, init_inv. Qed.

(** * The theorems *)

Lemma no_assertion a u l s : p_run (peer_init a u) l = Some s -> p_assert s = false.
Proof. intros E. exact (j_assert _ (reach_inv a u l s E)). Qed.

Lemma sent_in_order a u l s : p_run (peer_init a u) l = Some s ->
  map snd (p_sent s) `sublist_of` p_pushed s /\ by_connection (p_sent s).
Proof.
  intros E. pose proof (reach_inv a u l s E) as I. split; [|exact (j_sorted _ I)].
  etransitivity; [|exact (j_order _ I)]. now apply sublist_inserts_r.
Qed.

Lemma attempt_run l : forall s s', p_run s l = Some s' -> p_attempt s' = p_attempt s.
Proof.
  induction l as [|o l IH]; intros s s' E; cbn in E; [now injection E as <-|].
  destruct (p_step s o) as [s1|] eqn:S; [|discriminate E]. rewrite (IH s1 s' E). clear IH E.
  assert (N : p_attempt (notify s) = p_attempt s) by (unfold notify; now destruct (p_keeper s)).
  assert (D : p_attempt (disconnect s) = p_attempt s) by (unfold disconnect; now destruct (p_sock s)).
  assert (C : forall c s2 r, close_step s c = Some (s2, r) -> p_attempt s2 = p_attempt s).
  { intros c s2 r X. destruct c; cbn in X; try (now injection X as <- <-).
    - now destruct (p_sender s); try discriminate X; injection X as <- <-.
    - now destruct (p_receiver s); try discriminate X; injection X as <- <-. }
  destruct o; cbn in S.
  - injection S as <-. now destruct (p_shut s).
  - destruct (p_conns s !! c) as [[]|]; try discriminate S. now injection S as <-.
  - unfold arrive in S. destruct (p_receiver s); try discriminate S. destruct (alive s); [|discriminate S]. now injection S as <-.
  - destruct (p_keeper s); try discriminate S. now injection S as <-.
  - unfold sender_step in S. destruct (p_sender s); try discriminate S.
    + now injection S as <-.
    + destruct (p_queue s); [|now injection S as <-]. destruct (p_wake s); [|discriminate S].
      injection S as <-. now destruct (p_running s).
    + destruct (p_sock s), ok; try discriminate S; try (now injection S as <-);
        destruct (alive s); try discriminate S; now injection S as <-.
    + destruct (locked s); [discriminate S|]. now injection S as <-.
    + injection S as <-. exact N.
  - unfold receiver_step in S. destruct (p_receiver s); try discriminate S.
    + now injection S as <-.
    + destruct (alive s); [discriminate S|]. now injection S as <-.
    + destruct (locked s); [discriminate S|]. now injection S as <-.
    + injection S as <-. exact N.
  - unfold keeper_step in S. destruct (p_keeper s); try discriminate S; try (now injection S as <-).
    + destruct (p_flag s || p_shut s); now injection S as <-.
    + injection S as <-. destruct (p_shut s); [easy|]. destruct (p_attempt s) eqn:A; exact A.
    + destruct (close_step s c) as [[s2 [c2|]]|] eqn:X; try discriminate S; injection S as <-; exact (C _ _ _ X).
    + destruct (p_shut s); [now injection S as <-|]. destruct ok; injection S as <-; exact D.
    + destruct (p_shut s); now injection S as <-.
    + destruct (close_step s c) as [[s2 [c2|]]|] eqn:X; try discriminate S; injection S as <-; exact (C _ _ _ X).
  - unfold shutter_step in S. destruct (p_shutter s); try discriminate S; try (now injection S as <-).
    + destruct (p_keeper s); try discriminate S. now injection S as <-.
    + destruct (close_step s c) as [[s2 [c2|]]|] eqn:X; try discriminate S; injection S as <-; exact (C _ _ _ X).
Qed.

(** What may rest, and how. *)
Lemma rest_cases s : inv s -> at_rest s ->
  (connected_idle s /\ p_shut s = false /\ p_shutter s = XOff) \/
  (p_shutter s = XDone /\ ended s /\ p_keeper s = KDone /\ p_sock s = None) \/
  (p_shutter s = XOff /\ p_attempt s = false /\ p_keeper s = KDone /\ ended s /\ p_sock s = None) \/
  (p_shutter s = XJoin /\ p_keeper s = KAsleep /\ alive s = true).
Proof.
  intros I (RS & RR & RK & RX). cbn [p_step] in *.
  assert (NX : p_shutter s <> XNotify).
  { intros X. rewrite X in RX. specialize (RX ltac:(discriminate)). unfold shutter_step in RX.
    rewrite X in RX. discriminate RX. }
  (* while close() runs, the rest is at an end and may go on *)
  assert (CL : forall c, closing_at s = Some c -> exists x, close_step s c = Some x).
  { intros c C. pose proof (j_close s I c C) as (C1 & C2 & C3 & C4 & C5).
    destruct c; cbn; eauto.
    - (* join of the sending thread *)
      specialize (C1 ltac:(discriminate)). specialize (C2 ltac:(discriminate) ltac:(discriminate)).
      specialize (C3 (or_introl eq_refl)).
      pose proof (RS true) as R1. pose proof (RS false) as R2. unfold sender_step, alive, locked in R1, R2.
      rewrite C2 in R1, R2. destruct (p_sender s) eqn:PS; eauto; try discriminate R1; try discriminate R2.
      + destruct (p_queue s); [|discriminate R1]. destruct (p_wake s); [discriminate R1|].
        destruct (C3 eq_refl) as [X|X]; [discriminate X|now destruct X].
      + unfold closing_at in C. destruct (p_keeper s); try discriminate C; discriminate R1.
    - (* join of the receiving thread *)
      specialize (C1 ltac:(discriminate)). specialize (C2 ltac:(discriminate) ltac:(discriminate)).
      unfold receiver_step, alive, locked in RR.
      rewrite C2 in RR. destruct (p_receiver s) eqn:PR; eauto; try discriminate RR.
      unfold closing_at in C. destruct (p_keeper s); try discriminate C; discriminate RR. }
  assert (KK : p_keeper s = KAsleep \/ p_keeper s = KDone).
  { specialize (RK true). unfold keeper_step in RK. destruct (p_keeper s) eqn:PK; try discriminate RK; try tauto.
    - destruct (p_flag s || p_shut s); discriminate RK.
    - destruct (CL c) as [[s2 [c2|]] X]; [unfold closing_at; now rewrite PK| |]; rewrite X in RK; discriminate RK.
    - destruct (p_shut s); discriminate RK.
    - destruct (p_shut s); discriminate RK.
    - destruct (CL c) as [[s2 [c2|]] X]; [unfold closing_at; now rewrite PK| |]; rewrite X in RK; discriminate RK. }
  destruct KK as [KA|KD].
  - (* the reconnecting thread sleeps *)
    assert (PS : p_sender s <> SNotify /\ p_sender s <> STop /\ p_sender s <> SFail).
    { specialize (RS true). unfold sender_step, locked in RS. rewrite KA in RS.
      repeat split; intros X; rewrite X in RS; discriminate RS. }
    assert (PR : p_receiver s <> RNotify /\ p_receiver s <> RTop /\ p_receiver s <> RFail).
    { unfold receiver_step, locked in RR. rewrite KA in RR.
      repeat split; intros X; rewrite X in RR; discriminate RR. }
    destruct PS as (S1 & S2 & S3). destruct PR as (R1 & R2 & R3).
    assert (FL : p_flag s = false).
    { destruct (p_flag s) eqn:F; [|easy]. destruct (j_asleep s I KA F); easy. }
    destruct (p_shutter s) as [| | |c|] eqn:PX; [|easy| | |].
    + left.
      assert (SH : p_shut s = false).
      { destruct (p_shut s) eqn:SH; [|easy]. destruct (j_shut s I SH PX) as [[c X]|[X|X]]; congruence. }
      assert (SE : p_sender s <> SEnd).
      { intros X. destruct (j_sender s I SH (or_intror X)) as [Y|Y]; [congruence|now rewrite KA in Y]. }
      assert (RE : p_receiver s <> REnd).
      { intros X. destruct (j_receiver s I SH (or_intror X)) as [Y|Y]; [congruence|now rewrite KA in Y]. }
      assert (RN : p_running s = true).
      { destruct (p_running s) eqn:RN; [easy|].
        destruct (j_stopped s I RN SH) as [[c X]|[X|X]]; congruence. }
      assert (RD : p_receiver s = RRead) by (destruct (p_receiver s); easy).
      assert (AL : alive s = true).
      { unfold receiver_step in RR. rewrite RD in RR. now destruct (alive s). }
      split; [|easy]. unfold connected_idle. split_and!; try assumption.
      * pose proof (RS true) as X. unfold sender_step in X. destruct (p_sender s) eqn:PS; try easy.
        unfold alive in AL. destruct (p_sock s); [discriminate X|discriminate AL].
      * pose proof (RS true) as X. unfold sender_step in X. destruct (p_sender s) eqn:PS; try easy.
        -- destruct (p_queue s); [easy|discriminate X].
        -- unfold alive in AL. destruct (p_sock s); [discriminate X|discriminate AL].
    + do 3 right. split; [easy|]. split; [easy|].
      assert (RN : p_receiver s = RRead \/ p_receiver s = REnd) by (destruct (p_receiver s); tauto).
      destruct RN as [RD|RE].
      { unfold receiver_step in RR. rewrite RD in RR. now destruct (alive s). }
      exfalso. destruct (j_wait s I) as [_ W]; [tauto|]. rewrite W in FL by tauto. discriminate FL.
    + assert (X := j_done_x s I). rewrite PX in X. rewrite X in KA by eauto. discriminate KA.
    + assert (X := j_done_x s I). rewrite PX in X. rewrite X in KA by eauto. discriminate KA.
  - right. destruct (j_done s I KD) as [SH OFF]. destruct (p_shutter s) as [| | |c|] eqn:PX; [|easy| | |].
    + right. left. destruct (OFF eq_refl) as (O1 & O2 & O3). now split_and!.
    + specialize (RX ltac:(discriminate)). unfold shutter_step in RX. rewrite PX, KD in RX. discriminate RX.
    + specialize (RX ltac:(discriminate)). unfold shutter_step in RX. rewrite PX in RX.
      destruct (CL c) as [[s2 [c2|]] X]; [unfold closing_at; now rewrite KD, PX| |]; rewrite X in RX; discriminate RX.
    + left. destruct (j_ended_x s I PX) as [H1 H2]. now split_and!.
Qed.

Lemma rest_reconnecting u l s : p_run (peer_init true u) l = Some s -> at_rest s ->
  p_shutter s = XOff -> connected_idle s.
Proof.
  intros E R X. destruct (rest_cases s (reach_inv _ _ _ _ E) R) as [(H & _)|[(H & _)|[(_ & H & _)|(H & _)]]].
  - exact H.
  - congruence.
  - rewrite (attempt_run _ _ _ E) in H. discriminate H.
  - congruence.
Qed.

Lemma rest_once u l s : p_run (peer_init false u) l = Some s -> at_rest s ->
  p_shutter s = XOff ->
  connected_idle s \/
  (p_shut s = true /\ p_sender s = SEnd /\ p_receiver s = REnd /\ p_keeper s = KDone /\ p_sock s = None).
Proof.
  intros E R X. pose proof (reach_inv _ _ _ _ E) as I.
  destruct (rest_cases s I R) as [(H & _)|[(H & _)|[(_ & _ & H & (H1 & H2 & H3) & H4)|(H & _)]]].
  - now left.
  - congruence.
  - right. destruct (j_done s I H) as [SH _]. now split_and!.
  - congruence.
Qed.

Lemma rest_shutdown a u l s : p_run (peer_init a u) l = Some s -> at_rest s ->
  p_shutter s <> XOff ->
  (p_shutter s = XDone /\ p_sender s = SEnd /\ p_receiver s = REnd /\ p_keeper s = KDone /\ p_sock s = None) \/
  (p_shutter s = XJoin /\ p_keeper s = KAsleep /\ alive s = true).
Proof.
  intros E R X. pose proof (reach_inv _ _ _ _ E) as I.
  destruct (rest_cases s I R) as [(_ & _ & H)|[(H & (_ & H1 & H2) & H3 & H4)|[(H & _)|H]]]; try easy.
  - left. now split_and!.
  - now right.
Qed.
