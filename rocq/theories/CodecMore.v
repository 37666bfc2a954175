(** Further facts about the codecs. *)
From Coq Require Import NArith List Bool.
From stdpp Require Import base list.
From Coq Require Import Lia.
From Verif Require Import Base CodecModel CodecProofs.
Import ListNotations.
Open Scope N_scope.

Lemma option_failed {A} (c : codec A) s o s' :
  dec (c_option c) s = Ok o s' -> valid s' = false -> o = None.
Proof.
  cbn [dec c_option]. destruct (dec c_bool s) as [has s1| |]; cbn [bind]; [|discriminate|discriminate].
  destruct (valid s1) eqn:V1; cbn [negb].
  - destruct has.
    + destruct (dec c s1) as [a s2| |]; cbn [bind]; [|discriminate|discriminate].
      destruct (valid s2) eqn:V2; intros [= <- <-]; congruence.
    + intros [= <- _]. reflexivity.
  - intros [= <- _]. reflexivity.
Qed.


(** Values written into a buffer that nobody sized beforehand. *)
Lemma unsized_same w pre :
  fold_left bufser_write w (BufSer pre (len pre)) = BufSer (pre ++ make_buffer w) (len (pre ++ make_buffer w)).
Proof. rewrite bufser_append, make_buffer_ok. by rewrite len_app. Qed.

Lemma nuser_stays w s : nu_valid s = false -> nu_valid (fold_left nuser_write w s) = false.
Proof.
  revert s; induction w as [|d w IH]; intros s H; simpl; [done|]. apply IH.
  unfold nuser_write. destruct (_ <? _); [done|exact H].
Qed.

Lemma nuser_too_small w s : nu_pos s <= len (nu_buf s) ->
  len (nu_buf s) - nu_pos s < len (concat w) -> nu_valid (fold_left nuser_write w s) = false.
Proof.
  revert s; induction w as [|d w IH]; intros s Hp H; simpl in *.
  - rewrite len_nil in H. lia.
  - unfold nuser_write at 2. destruct (_ <? _) eqn:E; [by apply nuser_stays|].
    apply N.ltb_ge in E. rewrite len_app in H.
    assert (L : len (buf_overwrite (nu_buf s) (nu_pos s) d) = len (nu_buf s)).
    { unfold buf_overwrite, len in *. rewrite !app_length, firstn_length, skipn_length. lia. }
    apply IH; cbn [nu_buf nu_pos]; rewrite L; lia.
Qed.

(** A buffer smaller than what is written is never taken for a whole one. *)
Lemma nuraft_too_small w b : len b < len (make_buffer w) ->
  nu_valid (fold_left nuser_write w (NuSer b 0 true)) = false.
Proof. rewrite make_buffer_ok. intros H. apply nuser_too_small; cbn; lia. Qed.
