(** Proofs about the RLP codec. *)
From Coq Require Import NArith List Lia.
From stdpp Require Import base list.
From Verif Require Import Base CodecModel CodecSpec CodecProofs MsgProofs RlpModel RlpSpec.
Import ListNotations.
Open Scope N_scope.

Fixpoint rlp_ind' (P : rlp -> Prop) (B : forall b, P (RBuf b))
    (A : forall l, Forall P l -> P (RArr l)) (v : rlp) : P v :=
  match v with
  | RBuf b => B b
  | RArr l => A l ((fix go l : Forall P l := match l return Forall P l with
                                | [] => Forall_nil_2 _
                                | x :: r => Forall_cons_2 _ _ _ (rlp_ind' P B A x) (go r)
                                end) l)
  end.

(** ** Lengths *)

Lemma drop_zeros_spec b : exists k, b = repeat 0 k ++ drop_zeros b /\ hd 1 (drop_zeros b) <> 0.
Proof.
  induction b as [|x r IH]; cbn.
  - exists 0%nat. done.
  - destruct (N.eqb_spec x 0) as [->|N].
    + destruct IH as (k & E & H). exists (S k). cbn. rewrite <- E. done.
    + exists 0%nat. done.
Qed.

Lemma drop_zeros_forall (P : N -> Prop) b : Forall P b -> Forall P (drop_zeros b).
Proof.
  intros F. destruct (drop_zeros_spec b) as (k & E & _). rewrite E in F.
  rewrite Forall_app in F. tauto.
Qed.

Lemma le_value_zeros b k : le_value (b ++ repeat 0 k) = le_value b.
Proof.
  induction b as [|x b IH]; cbn.
  - induction k as [|k IHk]; cbn; [done|]. rewrite IHk. lia.
  - by rewrite IH.
Qed.

Lemma rev_repeat {A} (x : A) k : rev (repeat x k) = repeat x k.
Proof.
  induction k as [|k IH]; [done|]. cbn [repeat rev]. rewrite IH.
  clear IH. induction k as [|k IH]; [done|]. cbn. by rewrite IH.
Qed.

Lemma drop_zeros_value b : be_value (drop_zeros b) = be_value b.
Proof.
  destruct (drop_zeros_spec b) as (k & E & _). rewrite E at 2. unfold be_value.
  by rewrite rev_app_distr, rev_repeat, le_value_zeros.
Qed.

Lemma serialize_size_spec n : 0 < n -> n < two64 ->
  exists l, serialize_size n = l /\ 1 <= len l <= 8 /\ shortest_be n l /\ deserialize_size l = n.
Proof.
  intros P B. unfold serialize_size. destruct (N.eqb_spec n 0) as [->|_]; [lia|].
  set (b := rev (le_bytes 8 n)).
  assert (BV : be_value b = n).
  { unfold b, be_value. rewrite rev_involutive. apply le_value_bytes. exact B. }
  assert (BL : length b = 8%nat) by (unfold b; rewrite rev_length; apply le_bytes_length).
  assert (BB : Forall is_byte b) by (unfold b; apply Forall_rev; apply le_bytes_is_byte).
  destruct (drop_zeros_spec b) as (k & E & H).
  eexists. split; [reflexivity|].
  pose proof (drop_zeros_value b) as V. rewrite BV in V.
  assert (KL : (k + length (drop_zeros b) = 8)%nat).
  { rewrite <- BL. rewrite E at 2. rewrite app_length, repeat_length. done. }
  split.
  - unfold len. destruct (drop_zeros b) eqn:D.
    + cbn in V. lia.
    + cbn in KL |- *. lia.
  - split; [split; [done|split; [by apply drop_zeros_forall|done]]|].
    unfold deserialize_size. replace (8 - length (drop_zeros b))%nat with k by lia.
    rewrite <- E. exact BV.
Qed.

Lemma max_alloc_64 n : n <= max_alloc -> n < two64.
Proof. unfold max_alloc, two64. lia. Qed.

(** ** Reading *)

Lemma rd_1 b q : rd 1 (Dst (b :: q) true) = (Some [b], Dst q true).
Proof. exact (rd_ok [b] q). Qed.

Lemma read_zeroed_ok b q : len b <= max_alloc ->
  read_zeroed (len b) (Dst (b ++ q) true) = Ok (b, false) (Dst q true).
Proof.
  intros H. unfold read_zeroed. destruct (max_alloc <? len b) eqn:E; [lia|]. by rewrite rd_ok.
Qed.

Lemma read_zeroed_sticky n b x s : read_zeroed n (Dst b false) = Ok x s -> valid s = false.
Proof.
  unfold read_zeroed. destruct (_ <? _); [discriminate|]. destruct (rd n (Dst b false)) as [[o|] s'] eqn:E;
    apply rd_inv in E; intros H; inversion H; subst; [tauto|]. by destruct E as [_ ->].
Qed.

Lemma read_zeroed_valid n b x r : read_zeroed n (Dst b true) = Ok x (Dst r true) ->
  (exists p, b = p ++ r /\ fst x = p /\ len p = n) /\ snd x = false /\
  forall q, read_zeroed n (Dst (b ++ q) true) = Ok x (Dst (r ++ q) true).
Proof.
  unfold read_zeroed. destruct (max_alloc <? n) eqn:M; [discriminate|].
  destruct (rd n (Dst b true)) as [[o|] s'] eqn:E; apply rd_inv in E; intros H; inversion H; subst.
  - destruct E as (E & L & _). cbn in E. subst b. split; [|split].
    + eauto.
    + done.
    + intros q. rewrite <- app_assoc, <- L, rd_ok. done.
  - destruct E as [_ E]. inversion E.
Qed.

Lemma read_zeroed_length n s x s' : read_zeroed n s = Ok x s' ->
  (length (CodecModel.rem s') <= length (CodecModel.rem s))%nat /\
  (snd x = false -> (length (fst x) <= length (CodecModel.rem s))%nat).
Proof.
  destruct s as [b v]. unfold read_zeroed. destruct (_ <? _); [discriminate|].
  destruct (rd n (Dst b v)) as [[o|] s1] eqn:E; apply rd_inv in E; intros H; inversion H; subst; cbn.
  - destruct E as (-> & _). rewrite app_length. lia.
  - destruct E as [_ ->]. cbn. split; [lia|discriminate].
Qed.

Lemma read_zeroed_nofuel n s : read_zeroed n s <> NoFuel.
Proof.
  unfold read_zeroed. destruct (_ <? _); [discriminate|]. destruct (rd n s) as [[o|] s']; discriminate.
Qed.

Lemma read_buffer_nofuel n s : read_buffer n s <> NoFuel.
Proof. apply bind_fuel; [apply read_zeroed_nofuel|discriminate]. Qed.

(** Enough fuel. *)
Lemma enough f :
  (forall s, (3 * length (CodecModel.rem s) + 1 <= f)%nat -> read_value f s <> NoFuel) /\
  (forall n s, (3 * length (CodecModel.rem s) + 3 <= f)%nat -> read_array f n s <> NoFuel) /\
  (forall s, (3 * length (CodecModel.rem s) + 2 <= f)%nat -> read_values f s <> NoFuel) /\
  (forall s v s', read_value f s = Ok v s' -> CodecModel.rem s <> [] ->
     (length (CodecModel.rem s') < length (CodecModel.rem s))%nat).
Proof.
  induction f as [|f (IV & IA & IW & IC)].
  { repeat split; intros; try lia. discriminate. }
  assert (CA : forall g n s v s', read_array g n s = Ok v s' ->
    (length (CodecModel.rem s') <= length (CodecModel.rem s))%nat).
  { intros g n s v s' H. destruct g as [|g]; [discriminate|]. cbn [read_array] in H.
    destruct (n =? 0); [by inversion H|].
    apply bind_ok in H as (x & s1 & H1 & H2). apply read_zeroed_length in H1 as [H1 _].
    destruct (snd x); [by inversion H2; subst|].
    destruct (read_values _ _); try discriminate. by inversion H2; subst. }
  assert (CB : forall n s v s', read_buffer n s = Ok v s' ->
    (length (CodecModel.rem s') <= length (CodecModel.rem s))%nat).
  { intros n s v s' H. apply bind_ok in H as (x & s1 & H1 & H2).
    apply read_zeroed_length in H1 as [H1 _]. by inversion H2; subst. }
  split; [|split; [|split]].
  - intros [b v] H. cbn [CodecModel.rem] in H. cbn [read_value].
    destruct b as [|x b].
    + cbn. discriminate.
    + assert (E : rd 1 (Dst (x :: b) v) = (Some [x], Dst b v)).
      { unfold rd. cbn [CodecModel.rem]. rewrite len_cons. destruct (1 + len b <? 1) eqn:T; [lia|]. done. }
      rewrite E. cbn [length] in H.
      destruct (x <? 128); [discriminate|]. destruct (x <=? 128 + 55); [apply read_buffer_nofuel|].
      destruct (x <? 192).
      { apply bind_fuel; [apply read_zeroed_nofuel|]. intros. apply read_buffer_nofuel. }
      destruct (x <=? 192 + 55); [apply IA; cbn; lia|].
      destruct (read_zeroed _ _) as [y s1| |] eqn:Z; cbn [bind]; try discriminate.
      * apply read_zeroed_length in Z as [Z _]. cbn in Z. apply IA. lia.
      * by apply read_zeroed_nofuel in Z.
  - intros n s H. cbn [read_array]. destruct (n =? 0); [discriminate|].
    destruct (read_zeroed n s) as [y s1| |] eqn:Z; cbn [bind]; try discriminate.
    + apply read_zeroed_length in Z as [Z1 Z2]. destruct (snd y) eqn:Y; [discriminate|].
      specialize (Z2 eq_refl).
      pose proof (IW (Dst (fst y) true)) as W. cbn [CodecModel.rem] in W.
      destruct (read_values f _) eqn:R; try discriminate. exfalso. apply W; [lia|done].
    + by apply read_zeroed_nofuel in Z.
  - intros s H. cbn [read_values]. destruct (CodecModel.rem s) as [|x b] eqn:R; [discriminate|].
    destruct (read_value f s) as [v s1| |] eqn:V; cbn [bind]; try discriminate.
    + apply IC in V; [|by rewrite R]. rewrite R in V. cbn [length] in *.
      apply bind_fuel; [|discriminate]. apply IW. lia.
    + apply IV in V; [done|]. rewrite R. lia.
  - intros [b vb] v s' H N. cbn [CodecModel.rem] in N |- *. destruct b as [|x b]; [done|]. cbn [read_value] in H.
    assert (E : rd 1 (Dst (x :: b) vb) = (Some [x], Dst b vb)).
    { unfold rd. cbn [CodecModel.rem]. rewrite len_cons. destruct (1 + len b <? 1) eqn:T; [lia|]. done. }
    rewrite E in H. cbn [length].
    destruct (x <? 128); [inversion H; subst; cbn; lia|].
    destruct (x <=? 128 + 55); [apply CB in H; cbn in H; lia|].
    destruct (x <? 192).
    { apply bind_ok in H as (y & s1 & H1 & H2). apply read_zeroed_length in H1 as [H1 _].
      apply CB in H2. cbn in H1. lia. }
    destruct (x <=? 192 + 55); [apply CA in H; cbn in H; lia|].
    apply bind_ok in H as (y & s1 & H1 & H2). apply read_zeroed_length in H1 as [H1 _].
    apply CA in H2. cbn in H1. lia.
Qed.

(** More fuel does not change a result. *)
Lemma mono f :
  (forall s g, (f <= g)%nat -> read_value f s <> NoFuel -> read_value g s = read_value f s) /\
  (forall n s g, (f <= g)%nat -> read_array f n s <> NoFuel -> read_array g n s = read_array f n s) /\
  (forall s g, (f <= g)%nat -> read_values f s <> NoFuel -> read_values g s = read_values f s).
Proof.
  induction f as [|f (IV & IA & IW)]; [repeat split; intros; done|].
  split; [|split].
  - intros s [|g] L N; [lia|]. cbn [read_value] in *. destruct (rd 1 s) as [ob s1].
    set (b := match ob with Some [x] => x | _ => 0 end) in *. clearbody b.
    destruct (b <? 128); [done|]. destruct (b <=? 128 + 55); [done|]. destruct (b <? 192); [done|].
    destruct (b <=? 192 + 55); [apply IA; [lia|done]|].
    destruct (read_zeroed _ s1); cbn [bind] in *; try done. apply IA; [lia|done].
  - intros n s [|g] L N; [lia|]. cbn [read_array] in *. destruct (n =? 0); [done|].
    destruct (read_zeroed n s); cbn [bind] in *; try done.
    destruct (snd a); [done|]. destruct (read_values f _) eqn:R.
    + rewrite IW; [by rewrite R|lia|by rewrite R].
    + rewrite IW; [by rewrite R|lia|by rewrite R].
    + done.
  - intros s [|g] L N; [lia|]. cbn [read_values] in *. destruct (CodecModel.rem s); [done|].
    destruct (read_value f s) as [v s1| |] eqn:V; cbn [bind] in N.
    + rewrite IV; [|lia|by rewrite V]. rewrite V. cbn [bind] in *.
      destruct (read_values f s1) eqn:R; cbn [bind] in N; try done.
      * rewrite IW; [|lia|by rewrite R]. by rewrite R.
      * rewrite IW; [|lia|by rewrite R]. by rewrite R.
    + rewrite IV; [|lia|by rewrite V]. by rewrite V.
    + done.
Qed.

(** ** Round trip *)

Lemma read_buffer_ok b q : len b <= max_alloc ->
  read_buffer (len b) (Dst (b ++ q) true) = Ok (RBuf b) (Dst q true).
Proof. intros H. unfold read_buffer. by rewrite read_zeroed_ok. Qed.

Definition rt (v : rlp) : Prop :=
  all_bytes v -> len (rlp_bytes v) <= max_alloc ->
  forall f q, (3 * length (rlp_bytes v) + 1 <= f)%nat ->
    read_value f (Dst (rlp_bytes v ++ q) true) = Ok v (Dst q true).

Lemma bytes_pos v : (1 <= length (rlp_bytes v))%nat.
Proof.
  assert (L : forall n o, (1 <= length (rlp_length n o))%nat).
  { intros n o. unfold rlp_length. destruct (_ <=? _); cbn; lia. }
  destruct v as [b|l]; cbn [rlp_bytes].
  - unfold write_buffer. assert (G : (1 <= length (rlp_length (len b) 128 ++ b))%nat).
    { rewrite app_length. specialize (L (len b) 128). lia. }
    destruct b as [|x [|y b]]; [exact G| |exact G].
    destruct (x <? 128); [cbn; lia|exact G].
  - rewrite app_length. specialize (L (len (concat (map rlp_bytes l))) 192). lia.
Qed.

Lemma rt_buf b : rt (RBuf b).
Proof.
  intros AB ML f q F. destruct f as [|f]; [lia|]. cbn [read_value rlp_bytes] in *.
  assert (W : (exists x, b = [x] /\ x < 128 /\ write_buffer b = [x]) \/
              write_buffer b = rlp_length (len b) 128 ++ b).
  { unfold write_buffer. destruct b as [|x [|y b]]; [by right| |by right].
    destruct (N.ltb_spec x 128); [left; eauto|by right]. }
  destruct W as [(x & -> & X & W)|W]; rewrite W in *; clear W.
  - cbn [app]. rewrite rd_1. destruct (N.ltb_spec x 128); [done|lia].
  - rewrite len_app in ML. unfold rlp_length in *. destruct (N.leb_spec (len b) 55) as [S|S].
    + rewrite N.mod_small by lia. cbn [app]. rewrite rd_1.
      destruct (N.ltb_spec (len b + 128) 128); [lia|].
      destruct (N.leb_spec (len b + 128) (128 + 55)); [|lia].
      replace (len b + 128 - 128) with (len b) by lia. apply read_buffer_ok. lia.
    + assert (B64 : len b < two64) by (apply max_alloc_64; lia).
      destruct (serialize_size_spec (len b)) as (l & E & L & _ & D); [lia|done|]. rewrite E in *.
      rewrite N.mod_small by lia. cbn [app]. rewrite rd_1.
      destruct (N.ltb_spec (len l + 55 + 128) 128); [lia|].
      destruct (N.leb_spec (len l + 55 + 128) (128 + 55)); [lia|].
      destruct (N.ltb_spec (len l + 55 + 128) 192); [|lia].
      replace (len l + 55 + 128 - 128 - 55) with (len l) by lia.
      rewrite <- app_assoc, read_zeroed_ok by (unfold max_alloc; lia). cbn [bind fst].
      rewrite D. apply read_buffer_ok. lia.
Qed.

Lemma rt_values l : Forall rt l -> fold_right (fun x p => all_bytes x /\ p) True l ->
  len (concat (map rlp_bytes l)) <= max_alloc ->
  forall f, (3 * length (concat (map rlp_bytes l)) + 2 <= f)%nat ->
    read_values f (Dst (concat (map rlp_bytes l)) true) = Ok l (Dst [] true).
Proof.
  induction 1 as [|v l R _ IH]; intros AB ML f F.
  - destruct f as [|f]; [lia|]. done.
  - cbn [fold_right map concat] in *. destruct AB as [A1 A2].
    destruct f as [|f]; [lia|]. cbn [read_values CodecModel.rem].
    pose proof (bytes_pos v) as P.
    rewrite app_length in F. rewrite len_app in ML.
    destruct (rlp_bytes v ++ concat (map rlp_bytes l)) as [|x r] eqn:E.
    { apply (f_equal length) in E. rewrite app_length in E. cbn in E. lia. }
    rewrite <- E. rewrite R; [|done|lia|lia]. cbn [bind]. rewrite IH; [done|done|lia|lia].
Qed.

Lemma rt_arr l : Forall rt l -> rt (RArr l).
Proof.
  intros R AB ML f q F. destruct f as [|f]; [lia|]. cbn [read_value rlp_bytes all_bytes] in *.
  set (inner := concat (map rlp_bytes l)) in *.
  rewrite len_app in ML. rewrite app_length in F.
  assert (RA : forall g, (3 * length inner + 3 <= g)%nat ->
    read_array g (len inner) (Dst (inner ++ q) true) = Ok (RArr l) (Dst q true)).
  { intros [|g] G; [lia|]. cbn [read_array]. destruct (N.eqb_spec (len inner) 0) as [E|E].
    - assert (I0 : inner = []) by (destruct inner; [done|rewrite len_cons in E; lia]).
      destruct l as [|v l]; [by rewrite I0|].
      exfalso. pose proof (bytes_pos v). unfold inner in I0. cbn in I0.
      apply app_eq_nil in I0 as [I0 _]. rewrite I0 in H. cbn in H. lia.
    - rewrite read_zeroed_ok by lia. cbn [bind snd fst].
      unfold inner; rewrite (rt_values l); [done|done|done|unfold inner in *; lia|unfold inner in *; lia]. }
  unfold rlp_length in *. destruct (N.leb_spec (len inner) 55) as [S|S].
  - rewrite N.mod_small by lia. cbn [app length] in *. rewrite rd_1.
    destruct (N.ltb_spec (len inner + 192) 128); [lia|].
    destruct (N.leb_spec (len inner + 192) (128 + 55)); [lia|].
    destruct (N.ltb_spec (len inner + 192) 192); [lia|].
    destruct (N.leb_spec (len inner + 192) (192 + 55)); [|lia].
    replace (len inner + 192 - 192) with (len inner) by lia. apply RA. lia.
  - assert (B64 : len inner < two64) by (apply max_alloc_64; lia).
    destruct (serialize_size_spec (len inner)) as (h & E & L & _ & D); [lia|done|]. rewrite E in *.
    rewrite N.mod_small by lia. cbn [app length] in *. rewrite rd_1.
    destruct (N.ltb_spec (len h + 55 + 192) 128); [lia|].
    destruct (N.leb_spec (len h + 55 + 192) (128 + 55)); [lia|].
    destruct (N.ltb_spec (len h + 55 + 192) 192); [lia|].
    destruct (N.leb_spec (len h + 55 + 192) (192 + 55)); [lia|].
    replace (len h + 55 + 192 - 192 - 55) with (len h) by lia.
    rewrite <- app_assoc, read_zeroed_ok by (unfold max_alloc; lia). cbn [bind fst].
    rewrite D. apply RA. lia.
Qed.

Lemma rt_all v : rt v.
Proof. induction v as [b|l IH] using rlp_ind'; [apply rt_buf|by apply rt_arr]. Qed.

(** ** The laws *)

Lemma read_buffer_valid n b v r : read_buffer n (Dst b true) = Ok v (Dst r true) ->
  (exists p, b = p ++ r) /\
  forall q, read_buffer n (Dst (b ++ q) true) = Ok v (Dst (r ++ q) true).
Proof.
  intros H. apply bind_ok in H as (x & [b1 v1] & H1 & H2). inversion H2; subst.
  apply read_zeroed_valid in H1 as ((p & -> & _ & _) & _ & H1). split; [eauto|].
  intros q. unfold read_buffer. by rewrite H1.
Qed.

Lemma read_array_valid f n b v r : read_array f n (Dst b true) = Ok v (Dst r true) ->
  (exists p, b = p ++ r) /\
  forall q, read_array f n (Dst (b ++ q) true) = Ok v (Dst (r ++ q) true).
Proof.
  destruct f as [|f]; [discriminate|]. cbn [read_array]. destruct (n =? 0).
  - intros H; inversion H; subst. split; [by exists []|done].
  - intros H. apply bind_ok in H as (x & [b1 v1] & H1 & H2).
    assert (V1 : b1 = r /\ v1 = true).
    { destruct (snd x); [by inversion H2|]. destruct (read_values _ _); inversion H2; done. }
    destruct V1 as [-> ->].
    apply read_zeroed_valid in H1 as ((p & -> & _ & _) & S & H1). split; [eauto|].
    intros q. rewrite H1. cbn [bind]. rewrite S in *.
    destruct (read_values _ _); inversion H2; done.
Qed.

Lemma read_value_valid f b v r : read_value f (Dst b true) = Ok v (Dst r true) ->
  (exists p, b = p ++ r) /\
  forall q, read_value f (Dst (b ++ q) true) = Ok v (Dst (r ++ q) true).
Proof.
  destruct f as [|f]; [discriminate|]. cbn [read_value].
  destruct b as [|x b].
  { cbn. intros H. inversion H. }
  rewrite rd_1. intros H.
  assert (G : (exists p, b = p ++ r) -> exists p, x :: b = p ++ r).
  { intros [p ->]. by exists (x :: p). }
  assert (E : forall q, rd 1 (Dst ((x :: b) ++ q) true) = (Some [x], Dst (b ++ q) true)).
  { intros q. apply (rd_1 x (b ++ q)). }
  destruct (x <? 128) eqn:C1.
  { inversion H; subst. split; [by exists [x]|]. intros q. by rewrite E, C1. }
  destruct (x <=? 128 + 55) eqn:C2.
  { apply read_buffer_valid in H as [H1 H2]. split; [auto|]. intros q. by rewrite E, C1, C2. }
  destruct (x <? 192) eqn:C3.
  { apply bind_ok in H as (y & [b1 v1] & H1 & H2).
    assert (v1 = true) as ->.
    { destruct v1; [done|]. apply bind_ok in H2 as (z & s2 & H2 & H3).
      pose proof (read_zeroed_sticky _ _ _ _ H2). by inversion H3; subst. }
    apply read_zeroed_valid in H1 as ((p & -> & _ & _) & _ & H1).
    apply read_buffer_valid in H2 as [[p' ->] H2]. split.
    - apply G. exists (p ++ p'). by rewrite app_assoc.
    - intros q. rewrite E, C1, C2, C3, H1. cbn [bind]. apply H2. }
  destruct (x <=? 192 + 55) eqn:C4.
  { apply read_array_valid in H as [H1 H2]. split; [auto|]. intros q. by rewrite E, C1, C2, C3, C4. }
  apply bind_ok in H as (y & [b1 v1] & H1 & H2).
  assert (v1 = true) as ->.
  { destruct v1; [done|]. destruct f as [|f]; [discriminate|]. cbn [read_array] in H2.
    destruct (_ =? 0); [by inversion H2|].
    apply bind_ok in H2 as (z & s2 & H2 & H3).
    pose proof (read_zeroed_sticky _ _ _ _ H2).
    destruct (snd z); [by inversion H3; subst|]. destruct (read_values _ _); by inversion H3; subst. }
  apply read_zeroed_valid in H1 as ((p & -> & _ & _) & _ & H1).
  apply read_array_valid in H2 as [[p' ->] H2]. split.
  - apply G. exists (p ++ p'). by rewrite app_assoc.
  - intros q. rewrite E, C1, C2, C3, C4, H1. cbn [bind]. apply H2.
Qed.

Lemma read_array_sticky f n b v s : read_array f n (Dst b false) = Ok v s -> valid s = false.
Proof.
  destruct f as [|f]; [discriminate|]. cbn [read_array]. destruct (n =? 0).
  - intros H; by inversion H.
  - intros H. apply bind_ok in H as (x & s1 & H1 & H2). apply read_zeroed_sticky in H1.
    destruct (snd x); [by inversion H2; subst|]. destruct (read_values _ _); by inversion H2; subst.
Qed.

Lemma read_value_sticky f b v s : read_value f (Dst b false) = Ok v s -> valid s = false.
Proof.
  destruct f as [|f]; [discriminate|]. cbn [read_value].
  destruct (rd 1 (Dst b false)) as [ob s1] eqn:R.
  assert (V : valid s1 = false).
  { apply rd_inv in R. destruct ob; [tauto|]. by destruct R as [_ ->]. }
  destruct s1 as [b1 v1]. cbn in V. subst v1.
  set (x := match ob with Some [x] => x | _ => 0 end). clearbody x.
  destruct (x <? 128); [intros H; by inversion H|].
  destruct (x <=? 128 + 55).
  { intros H. apply bind_ok in H as (y & s2 & H1 & H2). apply read_zeroed_sticky in H1.
    by inversion H2; subst. }
  destruct (x <? 192).
  { intros H. apply bind_ok in H as (y & [b2 v2] & H1 & H2). apply read_zeroed_sticky in H1.
    cbn in H1. subst v2. apply bind_ok in H2 as (z & s3 & H2 & H3). apply read_zeroed_sticky in H2.
    by inversion H3; subst. }
  destruct (x <=? 192 + 55); [apply read_array_sticky|].
  intros H. apply bind_ok in H as (y & [b2 v2] & H1 & H2). apply read_zeroed_sticky in H1.
  cbn in H1. subst v2. by apply read_array_sticky in H2.
Qed.

Lemma lawful_rlp : lawful c_rlp.
Proof.
  split; cbn [dec c_rlp CodecModel.rem].
  - intros b a s. apply read_value_sticky.
  - intros b a r H. pose proof H as H'. apply read_value_valid in H as [H1 H2]. split; [done|].
    intros q. rewrite <- (H2 q).
    apply (proj1 (mono _)); [rewrite app_length; lia|]. rewrite H2. discriminate.
  - intros a q [A1 A2]. replace (enc c_rlp a) with (rlp_bytes a) by (symmetry; apply concat_single).
    apply rt_all; [done|done|]. rewrite app_length. lia.
  - intros s. apply (proj1 (enough _)). lia.
Qed.

Lemma wire_rlp : wire_correct c_rlp.
Proof. apply wire_of_lawful, lawful_rlp. Qed.

(** ** The standard *)

Lemma standard v : all_bytes v -> len (rlp_bytes v) <= max_alloc -> RLP v (rlp_bytes v).
Proof.
  induction v as [b|l IH] using rlp_ind'; intros AB ML.
  - cbn [rlp_bytes] in *.
    assert (W : (exists x, b = [x] /\ x < 128 /\ write_buffer b = [x]) \/
                (~ single_small b /\ write_buffer b = rlp_length (len b) 128 ++ b)).
    { unfold write_buffer, single_small. destruct b as [|x [|y b]].
      - right. split; [|done]. intros (? & ? & _). done.
      - destruct (N.ltb_spec x 128); [left; eauto|right]. split; [|done].
        intros (z & E & Z). inversion E; subst. lia.
      - right. split; [|done]. intros (? & ? & _). done. }
    destruct W as [(x & -> & X & W)|[NS W]]; rewrite W in *; clear W; [by constructor|].
    rewrite len_app in ML. unfold rlp_length in *. destruct (N.leb_spec (len b) 55) as [S|S].
    + rewrite N.mod_small by lia. rewrite N.add_comm. constructor; [done|lia].
    + destruct (serialize_size_spec (len b)) as (h & E & L & SB & _); [lia|apply max_alloc_64; lia|].
      rewrite E. rewrite N.mod_small by lia. cbn [app].
      replace (len h + 55 + 128) with (183 + len h) by lia. constructor; [lia|done].
  - cbn [rlp_bytes all_bytes] in *.
    set (inner := concat (map rlp_bytes l)) in *. rewrite len_app in ML.
    assert (F : Forall2 RLP l (map rlp_bytes l)).
    { assert (ML' : len (concat (map rlp_bytes l)) <= max_alloc) by (unfold inner in *; lia).
      clear inner ML. induction IH as [|v l H _ IH2]; [constructor|].
      cbn [fold_right map concat] in *. rewrite len_app in ML'. destruct AB as [A1 A2]. constructor.
      - apply H; [done|lia].
      - apply IH2; [done|lia]. }
    unfold rlp_length in *. destruct (N.leb_spec (len inner) 55) as [S|S].
    + rewrite N.mod_small by lia. rewrite N.add_comm. cbn [app]. apply RLP_list; [done|]. unfold inner in *. lia.
    + destruct (serialize_size_spec (len inner)) as (h & E & L & SB & _); [lia|apply max_alloc_64; lia|].
      rewrite E. rewrite N.mod_small by lia. cbn [app].
      replace (len h + 55 + 192) with (247 + len h) by lia. apply RLP_long_list; [done|unfold inner in *; lia|done].
Qed.

Lemma standard_encoding v : dom c_rlp v -> RLP v (encoding c_rlp v).
Proof.
  intros [A L]. replace (encoding c_rlp v) with (rlp_bytes v) by (symmetry; unfold encoding; rewrite make_buffer_ok; apply concat_single).
  by apply standard.
Qed.

(** ** The encoding is unique *)

Lemma be_snoc b x : be_value (b ++ [x]) = x + 256 * be_value b.
Proof. unfold be_value. by rewrite rev_app_distr. Qed.

Lemma shortest_be_inj n l l' : shortest_be n l -> shortest_be n l' -> l = l'.
Proof.
  revert n l'. induction l as [|x l IH] using rev_ind; intros n l' (V & F & H) (V' & F' & H').
  - destruct l' as [|y l'] using rev_ind; [done|]. clear IHl'. exfalso. rewrite be_snoc in V'. cbn in V. subst n.
    destruct l' as [|z l']; cbn [app hd] in H'; [unfold be_value in V'; cbn in V'; lia|].
    assert (P : 0 < be_value (z :: l')).
    { clear -H'. unfold be_value. cbn [rev]. induction (rev l') as [|w r IH]; cbn [app le_value]; lia. }
    lia.
  - destruct l' as [|y l' _] using rev_ind.
    { exfalso. rewrite be_snoc in V. cbn in V'.
      destruct l as [|z l]; cbn [app hd] in H; [unfold be_value in V; cbn in V; lia|].
      assert (P : 0 < be_value (z :: l)).
      { clear -H. unfold be_value. cbn [rev]. induction (rev l) as [|w r IH]; cbn [app le_value]; lia. }
      lia. }
    rewrite be_snoc in V, V'. rewrite Forall_app in F, F'. destruct F as [F1 F2], F' as [F1' F2'].
    inversion F2 as [|? ? X _]; inversion F2' as [|? ? Y _]; subst. unfold is_byte in *.
    assert (x = y /\ be_value l = be_value l') as [-> E] by lia.
    f_equal. apply (IH (be_value l)).
    + split; [done|]. split; [done|]. destruct l; [cbn; lia|exact H].
    + split; [done|]. split; [done|]. destruct l'; [cbn; lia|exact H'].
Qed.

Lemma RLP_unique v e e' : RLP v e -> RLP v e' -> e = e'.
Proof.
  revert e e'. induction v as [b|l IH] using rlp_ind'; intros e e' H H'.
  - inversion H as [x X|b0 S L|b0 l L SB|vs es R L|vs es l R L SB]; subst;
      inversion H' as [x' X'|b0' S' L'|b0' l' L' SB'|vs' es' R' L'|vs' es' l' R' L' SB']; subst; try done; try lia.
    all: try (exfalso; apply S || apply S'; eexists; by split).
    all: try (exfalso; unfold len in *; cbn [length] in *; lia).
    by rewrite (shortest_be_inj _ _ _ SB SB').
  - assert (U : forall es es', Forall2 RLP l es -> Forall2 RLP l es' -> es = es').
    { clear H H'. induction IH as [|v l H _ IH2]; intros es es' A B; inversion A; inversion B; subst; [done|].
      f_equal; [by apply H|by apply IH2]. }
    inversion H as [x X|b0 S L|b0 h L SB|vs es R L|vs es h R L SB]; subst;
      inversion H' as [x' X'|b0' S' L'|b0' h' L' SB'|vs' es' R' L'|vs' es' h' R' L' SB']; subst;
      rewrite (U _ _ R R') in *; try done; try lia.
    by rewrite (shortest_be_inj _ _ _ SB SB').
Qed.

Lemma reads_standard v e q : dom c_rlp v -> RLP v e ->
  dec c_rlp (Dst (e ++ q) true) = Ok v (Dst q true).
Proof.
  intros D R. rewrite (RLP_unique _ _ _ R (standard_encoding v D)). by apply wire_rlp.
Qed.
