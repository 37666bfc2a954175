(** Proofs about packets over a connection (C71). *)
From Coq Require Import NArith List Bool Lia.
From stdpp Require Import base list.
From Verif Require Import Base CodecModel CodecProofs SocketModel SocketSpec.
Import ListNotations.
Open Scope N_scope.

Lemma len_firstn {A} n (l : list A) : n <= len l -> len (firstn (N.to_nat n) l) = n.
Proof. unfold len. intros. rewrite take_length. lia. Qed.
Lemma len_skipn {A} n (l : list A) : len (skipn (N.to_nat n) l) = len l - n.
Proof. unfold len. rewrite drop_length. lia. Qed.

(** * Writing *)

Lemma write_loop_spec ks data total w e ks' : total <= len data ->
  write_loop ks data total = (w, e, ks') ->
  (exists rest, skipn (N.to_nat total) data = w ++ rest /\ (e = IoDone <-> rest = [])) /\
  (exists used, ks = used ++ ks').
Proof.
  revert total w e ks'. induction ks as [|k r IH]; intros total w e ks' B E; cbn [write_loop] in E.
  - destruct (total =? len data) eqn:T.
    + apply N.eqb_eq in T. injection E as <- <- <-. split; [|now exists []].
      exists []. split; [|easy]. rewrite drop_ge; [easy|]. unfold len in T. lia.
    + apply N.eqb_neq in T. injection E as <- <- <-. split; [|now exists []].
      exists (skipn (N.to_nat total) data). split; [easy|]. split; [easy|]. intros H. exfalso.
      apply (f_equal len) in H. rewrite len_skipn, len_nil in H. lia.
  - destruct (total =? len data) eqn:T.
    + apply N.eqb_eq in T. injection E as <- <- <-. split; [|now exists []].
      exists []. split; [|easy]. rewrite drop_ge; [easy|]. unfold len in T. lia.
    + apply N.eqb_neq in T.
      destruct (N.min k (len data - total) =? 0) eqn:K.
      * injection E as <- <- <-. split; [|now exists [k]].
        exists (skipn (N.to_nat total) data). split; [easy|]. split; [easy|]. intros H. exfalso.
        apply (f_equal len) in H. rewrite len_skipn, len_nil in H. lia.
      * apply N.eqb_neq in K. set (n := N.min k (len data - total)) in *.
        destruct (write_loop r data (total + n)) as [[w2 e2] r2] eqn:L.
        injection E as <- <- <-.
        apply IH in L as [(rest & L1 & L2) (used & L3)]; [|lia]. split.
        -- exists rest. split; [|easy]. rewrite <- app_assoc, <- L1.
           rewrite <- (take_drop (N.to_nat n) (drop (N.to_nat total) data)) at 1.
           f_equal. rewrite drop_drop. f_equal. lia.
        -- exists (k :: used). now rewrite L3.
Qed.

Lemma frame_len p : len (frame p) = 8 + len p.
Proof. unfold frame. rewrite len_app. unfold len at 1. rewrite le_bytes_length. lia. Qed.

Lemma send_spec ks pkt w e ks' : len pkt < two64 -> send ks pkt = (w, e, ks') ->
  exists rest, frame pkt = w ++ rest /\ (e = IoDone <-> rest = []).
Proof.
  intros B E. unfold send in E. unfold wrap64 in E. rewrite N.mod_small in E by easy.
  destruct (write_loop ks (le_bytes 8 (len pkt)) 0) as [[w1 e1] ks1] eqn:W1.
  apply write_loop_spec in W1 as [(r1 & A1 & A2) _]; [|unfold len; lia].
  cbn [N.to_nat skipn] in A1.
  destruct e1.
  - destruct (write_loop ks1 pkt 0) as [[w2 e2] ks2] eqn:W2.
    apply write_loop_spec in W2 as [(r2 & B1 & B2) _]; [|unfold len; lia].
    injection E as <- <- <-. cbn [N.to_nat skipn] in B1.
    assert (r1 = []) as -> by now apply A2. exists r2. split; [|easy].
    unfold frame. rewrite drop_0 in A1, B1. rewrite A1, B1, app_nil_r. now rewrite app_assoc.
  - injection E as <- <- <-. exists (r1 ++ pkt). split.
    + unfold frame. rewrite drop_0 in A1. rewrite A1. now rewrite app_assoc.
    + split; [easy|]. intros H. apply app_eq_nil in H as [H _]. now apply A2 in H.
  - injection E as <- <- <-. exists (r1 ++ pkt). split.
    + unfold frame. rewrite drop_0 in A1. rewrite A1. now rewrite app_assoc.
    + split; [easy|]. intros H. apply app_eq_nil in H as [H _]. now apply A2 in H.
Qed.

Lemma frame_not_nil p : frame p <> [].
Proof. intros H. apply (f_equal len) in H. rewrite frame_len in H. unfold len in H at 2. cbn in H. lia. Qed.

Lemma send_all_spec ks ps w e ks' : Forall (fun p => len p < two64) ps ->
  send_all ks ps = (w, e, ks') ->
  exists rest, frames ps = w ++ rest /\ (e = IoDone <-> rest = []).
Proof.
  revert ks w e ks'. induction ps as [|p r IH]; intros ks w e ks' B E; cbn [send_all] in E.
  - injection E as <- <- <-. now exists [].
  - apply Forall_cons in B as [B1 B2].
    destruct (send ks p) as [[w1 e1] ks1] eqn:S.
    apply send_spec in S as (r1 & A1 & A2); [|easy].
    assert (X : frames (p :: r) = frame p ++ frames r) by reflexivity.
    destruct e1.
    + destruct (send_all ks1 r) as [[w2 e2] ks2] eqn:S2.
      apply IH in S2 as (r2 & C1 & C2); [|easy].
      injection E as <- <- <-. assert (r1 = []) as -> by now apply A2.
      exists r2. split; [|easy]. rewrite X, A1, C1, app_nil_r. now rewrite app_assoc.
    + injection E as <- <- <-. exists (r1 ++ frames r). split.
      * rewrite X, A1. now rewrite app_assoc.
      * split; [easy|]. intros H. apply app_eq_nil in H as [H _]. now apply A2 in H.
    + injection E as <- <- <-. exists (r1 ++ frames r). split.
      * rewrite X, A1. now rewrite app_assoc.
      * split; [easy|]. intros H. apply app_eq_nil in H as [H _]. now apply A2 in H.
Qed.

(** * Reading *)

Lemma read_loop_spec ks closed wire want acc a e wire' ks' : len acc <= want ->
  read_loop ks closed wire want acc = (a, e, wire', ks') ->
  (exists got, a = acc ++ got /\ wire = got ++ wire' /\ (len ks <= len ks' + len got \/ e = IoError)) /\
  (e = IoDone -> len a = want) /\ (e <> IoDone -> len a < want) /\
  (no_error ks -> no_error ks') /\
  (no_error ks -> e = IoError -> closed = true /\ wire' = []) /\
  (e = IoWaits -> ks' = [] \/ closed = false /\ wire' = []).
Proof.
  revert wire acc a e wire' ks'.
  induction ks as [|k r IH]; intros wire acc a e wire' ks' B E; cbn [read_loop] in E.
  - destruct (want <=? len acc) eqn:T.
    + apply N.leb_le in T. injection E as <- <- <- <-.
      split_and!; try easy; try lia. exists []. rewrite app_nil_r. split_and!; try easy. left. lia.
    + apply N.leb_gt in T. injection E as <- <- <- <-.
      split_and!; try easy; try lia.
      * exists []. rewrite app_nil_r. split_and!; try easy. left. lia.
      * intros _. now left.
  - destruct (want <=? len acc) eqn:T.
    + apply N.leb_le in T. injection E as <- <- <- <-.
      split_and!; try easy; try lia. exists []. rewrite app_nil_r. split_and!; try easy. left. lia.
    + apply N.leb_gt in T. destruct wire as [|x wire].
      * destruct closed; injection E as <- <- <- <-; split_and!; try easy; try lia.
        -- exists []. rewrite app_nil_r. split_and!; try easy. now right.
        -- intros H. apply Forall_cons in H as [_ H]. exact H.
        -- exists []. rewrite app_nil_r. split_and!; try easy. left. lia.
        -- intros _. now right.
      * set (n := N.min (N.min k (want - len acc)) (len (x :: wire))) in *.
        assert (LC : len (x :: wire) = 1 + len wire) by apply len_cons.
        destruct (n =? 0) eqn:K.
        -- apply N.eqb_eq in K. injection E as <- <- <- <-. split_and!; try easy; try lia.
           ++ exists []. rewrite app_nil_r. split_and!; try easy. now right.
           ++ intros H. apply Forall_cons in H as [_ H]. exact H.
           ++ intros H _. apply Forall_cons in H as [H _]. exfalso. lia.
        -- apply N.eqb_neq in K.
           assert (N1 : len (firstn (N.to_nat n) (x :: wire)) = n) by (apply len_firstn; lia).
           apply IH in E as ((got & E1 & E2 & E3) & E4 & E5 & E6 & E7 & E8);
             [|rewrite len_app, N1; lia].
           split_and!; try easy.
           ++ exists (firstn (N.to_nat n) (x :: wire) ++ got). split_and!.
              ** rewrite E1. now rewrite app_assoc.
              ** rewrite <- app_assoc, <- E2. now rewrite take_drop.
              ** destruct E3 as [E3|E3]; [left|now right].
                 rewrite len_app, N1. rewrite len_cons. lia.
           ++ intros H. apply Forall_cons in H as [_ H]. now apply E6.
           ++ intros H. apply Forall_cons in H as [_ H]. now apply E7.
Qed.

(** Two ways to write a list agree on parts of the same size. *)
Lemma app_len_inj {A} (a b c d : list A) : a ++ b = c ++ d -> len a = len c -> a = c /\ b = d.
Proof.
  intros E L. assert (length a = length c) by (unfold len in L; lia).
  now apply app_inj_1.
Qed.

(** A receive on a connection that carries (the beginning of) the frame of [p]: *)
Lemma receive_frame mem ks closed wire p more rest res wire' ks' :
  fits mem p -> mem < two64 -> frame p ++ more = wire ++ rest ->
  receive mem ks closed wire = (res, wire', ks') ->
  match res with
  | Received q => q = p /\ wire = frame p ++ wire' /\ more = wire' ++ rest /\
                  len ks <= len ks' + len (frame p)
  | Threw => False
  | NotReceived => no_error ks -> closed = true /\ len wire < len (frame p)
  | Receiving => len wire < len ks -> closed = false /\ len wire < len (frame p)
  end /\ (no_error ks -> no_error ks').
Proof.
  intros F M W E. unfold receive in E. unfold fits in F.
  destruct (read_loop ks closed wire 8 []) as [[[sz e1] wire1] ks1] eqn:R1.
  apply read_loop_spec in R1 as ((g1 & A1 & A2 & A3) & A4 & A5 & A6 & A7 & A8);
    [|rewrite len_nil; lia].
  cbn [app] in A1. subst g1.
  destruct e1.
  - assert (S : sz = le_bytes 8 (len p) /\ p ++ more = wire1 ++ rest).
    { assert (L : le_bytes 8 (len p) ++ (p ++ more) = sz ++ (wire1 ++ rest)).
      { rewrite A2 in W. unfold frame in W. rewrite <- !app_assoc in W. exact W. }
      symmetry in L. apply app_len_inj in L as [L1 L2]; [now split|].
      rewrite A4 by easy. unfold len. now rewrite le_bytes_length. }
    destruct S as [S1 S2]. rewrite S1 in E.
    rewrite le_value_bytes in E by (change (256 ^ N.of_nat 8) with two64; lia).
    destruct (mem <? len p) eqn:T; [apply N.ltb_lt in T; lia|].
    destruct (read_loop ks1 closed wire1 (len p) []) as [[[pkt e2] wire2] ks2] eqn:R2.
    apply read_loop_spec in R2 as ((g2 & B1 & B2 & B3) & B4 & B5 & B6 & B7 & B8);
      [|rewrite len_nil; lia].
    cbn [app] in B1. subst g2.
    assert (WL : len wire = len sz + (len pkt + len wire2)) by (rewrite A2, B2, !len_app; lia).
    rewrite A4 in WL by easy.
    destruct A3 as [A3|A3]; [|easy]. rewrite A4 in A3 by easy.
    destruct e2.
    + injection E as <- <- <-. split; [|tauto].
      rewrite B2, <- app_assoc in S2. symmetry in S2.
      apply app_len_inj in S2 as [S2 S3]; [|now apply B4]. rewrite frame_len. split_and!.
      * easy.
      * rewrite A2, B2, S1, S2. unfold frame. now rewrite app_assoc.
      * easy.
      * destruct B3 as [B3|B3]; [|easy]. rewrite B4 in B3 by easy. lia.
    + injection E as <- <- <-. split; [|tauto]. intros H. destruct (B7 (A6 H) eq_refl) as [B7a B7b].
      split; [easy|]. rewrite frame_len, WL, B7b, len_nil. specialize (B5 ltac:(easy)). lia.
    + injection E as <- <- <-. split; [|tauto]. intros H. rewrite frame_len.
      specialize (B5 ltac:(easy)). destruct B3 as [B3|B3]; [|easy].
      destruct (B8 eq_refl) as [B8a|[B8a B8b]].
      * rewrite B8a, len_nil in B3. lia.
      * rewrite B8b, len_nil in WL. split; [easy|lia].
  - injection E as <- <- <-. split; [|tauto]. intros H. destruct (A7 H eq_refl) as [A7a A7b].
    split; [easy|]. rewrite frame_len, A2, A7b, app_nil_r. specialize (A5 ltac:(easy)). lia.
  - injection E as <- <- <-. split; [|tauto]. intros H. rewrite frame_len.
    specialize (A5 ltac:(easy)). destruct A3 as [A3|A3]; [|easy].
    assert (WL : len wire = len sz + len wire1) by (rewrite A2, !len_app; lia).
    destruct (A8 eq_refl) as [A8a|[A8a A8b]].
    + rewrite A8a, len_nil in A3. lia.
    + rewrite A8b, len_nil in WL. split; [easy|lia].
Qed.

(** A receive on a connection that carries nothing (more). *)
Lemma receive_nothing mem ks closed res wire' ks' :
  receive mem ks closed [] = (res, wire', ks') ->
  (res = NotReceived /\ closed = true) \/ (res = Receiving /\ (ks = [] \/ closed = false)).
Proof.
  unfold receive. destruct ks as [|k r]; cbn [read_loop]; rewrite len_nil; cbn.
  - intros [= <- <- <-]. right. split; [easy|]. now left.
  - destruct closed; intros [= <- <- <-]; [now left|right]. split; [easy|]. now right.
Qed.

Lemma frames_cons p r : frames (p :: r) = frame p ++ frames r.
Proof. reflexivity. Qed.

Lemma turns_spec mem turns : mem < two64 -> forall ps ks closed wire rest qs e,
  Forall (fits mem) ps -> frames ps = wire ++ rest ->
  receive_turns mem turns ks closed wire = (qs, e) ->
  e <> Terminated /\ (exists more, ps = qs ++ more) /\ (exists tail, wire = frames qs ++ tail) /\
  (e = Looping -> length qs = turns) /\
  (no_error ks -> len wire < len ks -> e <> Looping ->
     e = (if closed then Stopped else Blocked) /\
     forall qs' more' tail', ps = qs' ++ more' -> wire = frames qs' ++ tail' ->
       (length qs' <= length qs)%nat).
Proof.
  intros M. induction turns as [|n IH]; intros ps ks closed wire rest qs e F W E;
    cbn [receive_turns] in E.
  - injection E as <- <-. split_and!; try easy; [now exists ps|now exists wire].
  - destruct (receive mem ks closed wire) as [[res wire'] ks'] eqn:R.
    destruct ps as [|p ps].
    + symmetry in W. apply app_eq_nil in W as [-> ->].
      assert (Q : forall qs' more' tail' : list bytes, [] = qs' ++ more' -> (length qs' <= 0)%nat).
      { intros qs' more' _ H. symmetry in H. apply app_eq_nil in H as [-> _]. easy. }
      apply receive_nothing in R as [[-> ->]|[-> R]].
      * injection E as <- <-. split_and!; try easy; [now exists []|now exists []|].
        intros _ _ _. split; [easy|]. intros qs' more' tail' H _. exact (Q qs' more' [] H).
      * injection E as <- <-. split_and!; try easy; [now exists []|now exists []|].
        intros _ L _.
        cbn in L. destruct R as [->| ->]; [cbn in L; lia|].
        split; [easy|]. intros qs' more' tail' H _. exact (Q qs' more' [] H).
    + apply Forall_cons in F as [F1 F2]. rewrite frames_cons in W.
      assert (Q : len wire < len (frame p) -> forall qs' more' tail',
        p :: ps = qs' ++ more' -> wire = frames qs' ++ tail' -> (length qs' <= 0)%nat).
      { intros L qs' more' tail' H1 H2. destruct qs' as [|q qs']; [easy|].
        cbn [app] in H1. injection H1 as <- _. rewrite H2, frames_cons, !len_app in L. lia. }
      pose proof (receive_frame mem ks closed wire p (frames ps) rest res wire' ks' F1 M W R)
        as [RF NE].
      destruct res as [q| | |].
      * destruct RF as (-> & W1 & W2 & K).
        destruct (receive_turns mem n ks' closed wire') as [ps' e'] eqn:T.
        injection E as <- <-.
        destruct (IH ps ks' closed wire' rest ps' e' F2 W2 T)
          as (I1 & (m & I2) & (tl & I3) & I4 & I5).
        split_and!; try easy.
        -- exists m. now rewrite I2.
        -- exists tl. rewrite frames_cons, W1, I3. now rewrite app_assoc.
        -- intros H. cbn [length]. now rewrite (I4 H).
        -- intros HN HL HE.
           assert (HL' : len wire' < len ks') by (rewrite W1, len_app in HL; lia).
           destruct (I5 (NE HN) HL' HE) as [I6 I7]. split; [easy|].
           intros [|q' qs'] more' tail' H1 H2; [cbn; lia|].
           cbn [app] in H1. injection H1 as <- H1. rewrite frames_cons, <- app_assoc, W1 in H2.
           apply app_inv_head in H2. cbn [length].
           apply le_n_S. exact (I7 qs' more' tail' H1 H2).
      * injection E as <- <-. split_and!; try easy; [now eexists|now eexists|].
        intros HN HL _. destruct (RF HN) as [-> L]. split; [easy|]. exact (Q L).
      * injection E as <- <-. split_and!; try easy; [now eexists|now eexists|].
        intros HN HL _. destruct (RF HL) as [-> L]. split; [easy|]. exact (Q L).
      * easy.
Qed.

(** * The statements *)

(** [take n ps] and the frames that the wire holds. *)
Lemma delivered_prefix mem ps wks w e wks' turns ks closed qs t :
  mem < two64 -> Forall (fits mem) ps -> send_all wks ps = (w, e, wks') ->
  receive_turns mem turns ks closed w = (qs, t) ->
  t <> Terminated /\ qs `prefix_of` ps /\ frames qs `prefix_of` w.
Proof.
  intros M F S R.
  apply send_all_spec in S as (rest & S & _).
  2:{ eapply Forall_impl; [exact F|]. unfold fits. intros x H. lia. }
  destruct (turns_spec mem turns M ps ks closed w rest qs t F S R)
    as (T1 & T2 & T3 & _). split_and!; easy.
Qed.

Lemma frames_app a b : frames (a ++ b) = frames a ++ frames b.
Proof. unfold frames. now rewrite map_app, concat_app. Qed.

Lemma delivered_all mem ps wks w wks' turns ks closed qs t :
  mem < two64 -> Forall (fits mem) ps -> send_all wks ps = (w, IoDone, wks') ->
  no_error ks -> wire_size ps < len ks -> (length ps < turns)%nat ->
  receive_turns mem turns ks closed w = (qs, t) ->
  qs = ps /\ t = (if closed then Stopped else Blocked).
Proof.
  intros M F S NE L TN R.
  apply send_all_spec in S as (rest & S & D).
  2:{ eapply Forall_impl; [exact F|]. unfold fits. intros x H. lia. }
  assert (rest = []) as -> by now apply D.
  destruct (turns_spec mem turns M ps ks closed w [] qs t F S R)
    as (T1 & (more & T2) & T3 & T4 & T5).
  rewrite app_nil_r in S. unfold wire_size in L. rewrite S in L.
  assert (NL : t <> Looping).
  { intros H. apply T4 in H. apply (f_equal length) in T2. rewrite app_length in T2. lia. }
  destruct (T5 NE L NL) as [T6 T7]. split; [|easy].
  assert (B : (length ps <= length qs)%nat).
  { apply (T7 ps [] []); [now rewrite app_nil_r|]. now rewrite app_nil_r. }
  apply (f_equal length) in T2 as T8. rewrite app_length in T8.
  destruct more; [|cbn in T8; lia]. now rewrite app_nil_r in T2.
Qed.

Lemma delivered_most mem ps w rest turns ks closed qs t :
  mem < two64 -> Forall (fits mem) ps -> frames ps = w ++ rest ->
  no_error ks -> len w < len ks -> (length ps < turns)%nat ->
  receive_turns mem turns ks closed w = (qs, t) ->
  t = (if closed then Stopped else Blocked) /\ qs `prefix_of` ps /\ frames qs `prefix_of` w /\
  forall qs', qs' `prefix_of` ps -> frames qs' `prefix_of` w -> qs' `prefix_of` qs.
Proof.
  intros M F S NE L TN R.
  destruct (turns_spec mem turns M ps ks closed w rest qs t F S R)
    as (T1 & (more & T2) & T3 & T4 & T5).
  assert (NL : t <> Looping).
  { intros H. apply T4 in H. apply (f_equal length) in T2. rewrite app_length in T2. lia. }
  destruct (T5 NE L NL) as [T6 T7]. split_and!; [easy|now exists more|easy|].
  intros qs' [m' P1] [t' P2]. specialize (T7 qs' m' t' P1 P2).
  exists (take (length qs - length qs') m').
  apply (f_equal (take (length qs))) in P1. rewrite T2, take_app in P1.
  rewrite P1 at 1. rewrite take_app_ge by lia. easy.
Qed.

(** Eight bytes end the process. *)
Lemma le_value_ff : le_value (repeat 255 8) = two64 - 1.
Proof. vm_compute. reflexivity. Qed.

Lemma eight_bytes mem turns more closed ks : mem < two64 - 1 -> (0 < turns)%nat ->
  no_error ks -> 8 < len ks ->
  receive_turns mem turns ks closed (repeat 255 8 ++ more) = ([], Terminated).
Proof.
  intros M T NE L. destruct turns as [|n]; [lia|]. cbn [receive_turns]. unfold receive.
  destruct (read_loop ks closed (repeat 255 8 ++ more) 8 []) as [[[sz e1] wire1] ks1] eqn:R1.
  apply read_loop_spec in R1 as ((g1 & A1 & A2 & A3) & A4 & A5 & A6 & A7 & A8);
    [|rewrite len_nil; lia].
  cbn [app] in A1. subst g1.
  assert (LW : len (repeat 255 8 ++ more) = 8 + len more).
  { rewrite len_app, len_repeat. easy. }
  assert (LS : len (repeat 255 8 ++ more) = len sz + len wire1) by (rewrite A2, len_app; easy).
  destruct e1.
  - assert (SZ : sz = repeat 255 8).
    { apply app_len_inj in A2 as [A2 _]; [easy|]. rewrite A4 by easy. now rewrite len_repeat. }
    rewrite SZ, le_value_ff.
    destruct (mem <? two64 - 1) eqn:X; [easy|]. apply N.ltb_ge in X. lia.
  - specialize (A5 ltac:(easy)). destruct (A7 NE eq_refl) as [_ H].
    rewrite H, len_nil in LS. lia.
  - specialize (A5 ltac:(easy)). destruct A3 as [A3|A3]; [|easy].
    destruct (A8 eq_refl) as [H|[_ H]].
    + rewrite H, len_nil in A3. lia.
    + rewrite H, len_nil in LS. lia.
Qed.
