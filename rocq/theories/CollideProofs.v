(** The theorems that rest on the hash function, with the texts that would have to collide. *)
From Coq Require Import NArith ZArith Ascii String List Bool Lia.
From stdpp Require Import base decidable option list gmap countable.
From Verif Require Import Base CodecModel CodecProofs TxModel TxSpec TxProofs ValidationModel ValidationSpec
  MsgModel AtomizerModel AtomizerSpec AtomizerShardModel AtomizerSystemModel AtomizerShardSpec AtomizerSystemProofs
  SentinelModel SentinelSpec SentinelProofs WalletModel ConfigModel SupplySpec SupplyProofs SupplySystemProofs
  SeedModel SeedSpec SeedProofs EvmTxModel EvmTxSpec EvmTxProofs CollideSpec.
Import ListNotations.
Open Scope N_scope.

(** A function without any collision. *)
Definition number_text (b : bytes) : N := Npos (encode b).
Lemma number_text_inj : ~ collision number_text.
Proof. intros (x & y & N & E). apply N. injection E as E. by apply encode_inj in E. Qed.

Lemma tx_id_text sha tx : TxModel.tx_id sha tx = sha (id_text tx).
Proof. unfold TxModel.tx_id. by rewrite !make_buffer_ok. Qed.
Lemma coin_id_text sha c : input_hash sha c = sha (coin_text c).
Proof. unfold input_hash. by rewrite make_buffer_ok. Qed.
Lemma ctx_hash_text sha t : ctx_hash sha t = sha (attested_text t).
Proof. unfold ctx_hash. by rewrite make_buffer_ok. Qed.

Lemma id_text_inj a b : typed_full_tx a -> typed_full_tx b -> id_text a = id_text b ->
  tx_inputs a = tx_inputs b /\ tx_outputs a = tx_outputs b.
Proof.
  intros A B E. destruct (tx_id_commits number_text a b A B) as [H|H]; [|done|by apply number_text_inj in H].
  by rewrite !tx_id_text, E.
Qed.
Lemma coin_text_inj a b : dom c_input a -> dom c_input b -> coin_text a = coin_text b -> a = b.
Proof.
  intros A B E. destruct (input_id_injective number_text a b A B) as [H|H]; [|done|by apply number_text_inj in H].
  by rewrite !coin_id_text, E.
Qed.
Lemma attested_text_inj a b : typed_compact_tx a -> typed_compact_tx b -> attested_text a = attested_text b ->
  ctx_id a = ctx_id b /\ ctx_inputs a = ctx_inputs b /\ ctx_outputs a = ctx_outputs b.
Proof.
  intros A B E. destruct (compact_hash_commits number_text a b A B) as [H|H]; [|done|by apply number_text_inj in H].
  by rewrite !ctx_hash_text, E.
Qed.

Lemma hash_eq {H} (hash : bytes -> H) x y l : x ∈ l -> y ∈ l -> hash x = hash y -> x = y \/ collides hash l.
Proof. intros X Y E. destruct (decide (x = y)) as [->|N]; [by left|]. right. by exists x, y. Qed.
Lemma collides_mono {H} (hash : bytes -> H) l k : l ⊆ k -> collides hash l -> collides hash k.
Proof. intros S (x & y & X & Y & N & E). exists x, y. auto. Qed.

Lemma compact_commits sha a b : typed_compact_tx a -> typed_compact_tx b -> ctx_hash sha a = ctx_hash sha b ->
  (ctx_id a = ctx_id b /\ ctx_inputs a = ctx_inputs b /\ ctx_outputs a = ctx_outputs b)
  \/ collides sha [attested_text a; attested_text b].
Proof.
  intros A B E. rewrite !ctx_hash_text in E. apply (hash_eq sha _ _ [attested_text a; attested_text b]) in E as [E|E].
  - left. by apply attested_text_inj.
  - by right.
  - left.
  - right. left.
Qed.
Lemma id_commits sha a b : typed_full_tx a -> typed_full_tx b -> TxModel.tx_id sha a = TxModel.tx_id sha b ->
  (tx_inputs a = tx_inputs b /\ tx_outputs a = tx_outputs b) \/ collides sha [id_text a; id_text b].
Proof.
  intros A B E. rewrite !tx_id_text in E. apply (hash_eq sha _ _ [id_text a; id_text b]) in E as [E|E].
  - left. by apply id_text_inj.
  - by right.
  - left.
  - right. left.
Qed.
Lemma coin_commits sha a b : dom c_input a -> dom c_input b -> input_hash sha a = input_hash sha b ->
  a = b \/ collides sha [coin_text a; coin_text b].
Proof.
  intros A B E. rewrite !coin_id_text in E. apply (hash_eq sha _ _ [coin_text a; coin_text b]) in E as [E|E].
  - left. by apply coin_text_inj.
  - by right.
  - left.
  - right. left.
Qed.

Lemma outputs_distinct sha tx1 tx2 i j h a b :
  typed_full_tx tx1 -> typed_full_tx tx2 -> sha_fits sha ->
  input_from_output sha tx1 i = Some a -> input_from_output sha tx2 j = Some b ->
  nth_error (ctx_outputs (to_compact sha tx1)) i = Some h ->
  nth_error (ctx_outputs (to_compact sha tx2)) j = Some h ->
  (TxModel.tx_id sha tx1 = TxModel.tx_id sha tx2 /\ i = j /\
   nth_error (tx_outputs tx1) i = nth_error (tx_outputs tx2) j) \/ collides sha [coin_text a; coin_text b].
Proof.
  intros T1 T2 F Ha Hb. rewrite !output_id_correspondence, Ha, Hb. cbn [option_map]. intros [= Ea] [= Eb].
  unfold input_from_output, input_from_output_id in Ha, Hb.
  destruct (nth_error (tx_outputs tx1) i) as [o1|] eqn:E1; [|discriminate].
  destruct (nth_error (tx_outputs tx2) j) as [o2|] eqn:E2; [|discriminate].
  injection Ha as <-. injection Hb as <-.
  match type of Ea with input_hash sha ?x = _ => match type of Eb with input_hash sha ?y = _ =>
    destruct (coin_commits sha x y) as [E|E] end end.
  - by apply dom_input_of_output; [|apply F|].
  - by apply dom_input_of_output; [|apply F|].
  - congruence.
  - left. injection E as -> Ei ->. repeat split. lia.
  - by right.
Qed.

Lemma valid_attested sha pk_parse schnorr t known threshold bad : typed_compact_tx t -> sha_fits sha ->
  check_attestations sha pk_parse schnorr t known threshold = true ->
  len bad < threshold ->
  (forall pk, In pk known -> ~ In pk bad -> honest_key sha pk_parse schnorr pk) ->
  (exists tx, typed_full_tx tx /\ valid_tx sha pk_parse schnorr tx /\ ctx_hash sha t = ctx_hash sha (to_compact sha tx)) /\
  forall tx, typed_full_tx tx -> ctx_hash sha t = ctx_hash sha (to_compact sha tx) ->
    compact_of sha tx t \/ collides sha [attested_text t; attested_text (to_compact sha tx)].
Proof.
  intros T FI C LB HK. split; [|intros tx TT E; destruct (compact_commits sha t (to_compact sha tx)) as [(E1 & E2 & E3)|];
    [done|by apply to_compact_typed|done|left; by repeat split|by right]].
  apply check_attestations_exact in C; [|assumption]. destruct C as [(ks & ND & LK & A) _].
  destruct (SentinelProofs.pigeon sha pk_parse schnorr (fun x => x) (fun _ _ => 0) ks bad ND) as (pk & Hpk & NB); [unfold len in LB; lia|].
  destruct (A _ Hpk) as (IK & sg & _ & _ & V). destruct (HK pk IK NB _ _ V) as (tx & TT & VT & E).
  by exists tx.
Qed.

(** ** Money *)

Lemma apart_texts sha h : sha_fits sha -> Forall typed_full_tx h ->
  (coins_apart sha h /\ txs_apart sha h) \/ collides sha (history_texts sha h).
Proof.
  intros F T. destruct (finite_or2 (collides sha (history_texts sha h))
    (fun a b => input_hash sha a = input_hash sha b -> a = b) (all_made sha h ++ all_spent h)) as [C|]; [| |by right].
  { intros a b Ha Hb. destruct (decide (input_hash sha a = input_hash sha b)) as [E|E]; [|by left].
    destruct (coin_commits sha a b) as [->|K]; [eapply all_typed; eauto|eapply all_typed; eauto|done|by left|].
    right. eapply collides_mono; [|exact K]. intros x Hx. unfold history_texts. apply elem_of_app. right.
    apply elem_of_list_fmap. apply elem_of_cons in Hx as [->|Hx]; [by exists a|].
    apply elem_of_list_singleton in Hx as ->. by exists b. }
  destruct (finite_or2 (collides sha (history_texts sha h)) (fun a b => TxModel.tx_id sha a = TxModel.tx_id sha b ->
    tx_inputs a = tx_inputs b /\ tx_outputs a = tx_outputs b) h) as [D|]; [| |by right].
  { rewrite Forall_forall in T. intros a b Ha Hb.
    destruct (decide (TxModel.tx_id sha a = TxModel.tx_id sha b)) as [E|E]; [|by left].
    destruct (id_commits sha a b) as [E'|K]; [by apply T, elem_of_list_In|by apply T, elem_of_list_In|done|left; by intros _|].
    right. eapply collides_mono; [|exact K]. intros x Hx. unfold history_texts. apply elem_of_app. left.
    apply elem_of_list_fmap. apply elem_of_cons in Hx as [->|Hx]; [by exists a|].
    apply elem_of_list_singleton in Hx as ->. by exists b. }
  left. split; [exact C|exact D].
Qed.

Lemma conserved sha pk_parse schnorr h l : sha_fits sha -> Forall (genuine sha pk_parse schnorr) h ->
  stands_for sha h l -> no_double_spend l -> issued_once l ->
  (backed_by sha (utxo l) (circulating sha h) /\ worth (circulating sha h) = issued h)
  \/ collides sha (history_texts sha h).
Proof.
  intros F G S ND OI. assert (T : Forall typed_full_tx h) by (eapply Forall_impl; [|exact G]; by intros ? [? _]).
  destruct (apart_texts sha h F T) as [[CA TA]|]; [|by right]. left.
  pose proof (books_ok sha pk_parse schnorr h G CA TA l S ND OI) as B. split; [split|].
  - apply NoDup_fmap_2_strong.
    + intros a b Ha Hb. apply circulating_spec in Ha as [Ha _], Hb as [Hb _].
      apply CA; apply elem_of_app; by left.
    + apply NoDup_ListNoDup, List.NoDup_filter, NoDup_ListNoDup, B.
  - by eapply utxo_backed.
  - pose proof (worth_left _ _ (bk_made _ _ B) (bk_spent _ _ B) (bk_incl _ _ B)) as W.
    unfold SupplySpec.circulating. pose proof (bk_sum _ _ B). lia.
Qed.

(** ** The atomizer system *)

Section System.
  Variable sha : bytes -> hash.
  Variable pk_parse : N -> bool.
  Variable schnorr : N -> hash -> N -> bool.
  Notation genuine := (genuine sha pk_parse schnorr).

  Notation vouched := (vouched sha pk_parse schnorr).

  Lemma attested_vouched t known threshold bad : typed_compact_tx t ->
    check_attestations sha pk_parse schnorr t known threshold = true ->
    len bad < threshold ->
    (forall pk, In pk known -> ~ In pk bad -> faithful_key sha pk_parse schnorr pk) ->
    exists tx, vouched tx t.
  Proof.
    intros T C LB HK. apply check_attestations_exact in C; [|assumption]. destruct C as [(ks & ND & LK & A) _].
    destruct (SentinelProofs.pigeon sha pk_parse schnorr (fun x => x) (fun _ _ => 0) ks bad ND) as (pk & Hpk & NB); [unfold len in LB; lia|].
    destruct (A _ Hpk) as (IK & sg & _ & _ & V). destruct (HK pk IK NB _ _ V) as (tx & G & E).
    by exists tx.
  Qed.

  Lemma vouched_stand h l : sha_fits sha -> Forall typed_compact_tx l -> Forall2 vouched h l ->
    stands_for sha h l \/ collides sha (signed_texts sha h l).
  Proof.
    intros F. revert h. induction l as [|t l IH]; intros h T V; inversion V as [|tx t' h' l' [G E] V']; subst.
    - left. constructor.
    - pose proof (Forall_inv T) as Tt. apply Forall_inv_tail in T. destruct (IH h' T V') as [S|K].
      + destruct (compact_commits sha t (to_compact sha tx)) as [(E1 & E2 & E3)|K];
          [done|by apply to_compact_typed; [|apply G]|done| |].
        * left. constructor; [|done]. by repeat split.
        * right. eapply collides_mono; [|exact K]. intros x Hx. unfold signed_texts. cbn [map].
          apply elem_of_cons in Hx as [->|Hx]; [by left|]. apply elem_of_list_singleton in Hx as ->.
          apply elem_of_app. right. left.
      + right. eapply collides_mono; [|exact K]. intros x Hx. unfold signed_texts in *. cbn [map].
        apply elem_of_app in Hx as [Hx|Hx]; apply elem_of_app; [left|right]; by right.
  Qed.

  Lemma honest_stand h l : Forall genuine h -> stands_for sha h l -> txs_apart sha h -> ids_honest l.
  Proof.
    intros G S TA a b Ha Hb E.
    apply elem_of_list_lookup in Ha as [i Hi]. apply elem_of_list_lookup in Hb as [j Hj].
    destruct (Forall2_lookup_r _ _ _ _ _ S Hi) as (ta & La & A1 & A2 & A3).
    destruct (Forall2_lookup_r _ _ _ _ _ S Hj) as (tb & Lb & B1 & B2 & B3).
    apply elem_of_list_lookup_2 in La, Lb.
    assert (I : TxModel.tx_id sha ta = TxModel.tx_id sha tb) by (cbn in A1, B1; congruence).
    destruct (TA ta tb La Lb I) as [E1 E2]. unfold same_tx. rewrite A2, A3, B2, B3. cbn.
    rewrite I, E1, E2. split; reflexivity.
  Qed.

  Theorem chain_money known threshold bad d ranges nodes ls y :
    sha_fits sha -> len bad < threshold ->
    (forall pk, In pk known -> ~ In pk bad -> faithful_key sha pk_parse schnorr pk) ->
    asys_run (fun t => check_attestations sha pk_parse schnorr t known threshold) (asys_new ranges nodes d) ls = YOk y ->
    (forall i t, LTx i t ∈ ls -> typed_compact_tx t) ->
    (forall t h, LMint t h ∈ ls -> typed_compact_tx t /\
       check_attestations sha pk_parse schnorr t known threshold = true) ->
    len (ys_chain y) + 2 < two64 -> len (ys_chain y) + d < two64 ->
    issued_once (chain_txs (ys_chain y)) ->
    (exists hs h, Forall2 vouched hs (map nt_tx (ys_sent y)) /\ Forall2 vouched h (chain_txs (ys_chain y))) /\
    forall hs h, Forall2 vouched hs (map nt_tx (ys_sent y)) -> Forall2 vouched h (chain_txs (ys_chain y)) ->
      ((stands_for sha h (chain_txs (ys_chain y)) /\
        backed_by sha (utxo (chain_txs (ys_chain y))) (circulating sha h) /\
        worth (circulating sha h) = issued h /\
        forall i s, ys_shards y !! i = Some s -> as_best s = len (ys_chain y) -> forall x,
          x ∈ db_uhs (as_db s) <-> in_range (as_range s) x = true /\ x ∈ map (input_hash sha) (circulating sha h))
       \/ collides sha (history_texts sha hs) \/ collides sha (history_texts sha h)
       \/ collides sha (signed_texts sha hs (map nt_tx (ys_sent y)))
       \/ collides sha (signed_texts sha h (chain_txs (ys_chain y)))).
  Proof.
    intros F LB HK E LT LM H1 H2 OI. set (att := fun t => check_attestations sha pk_parse schnorr t known threshold) in *.
    pose proof (origin_run att (fun t => typed_compact_tx t /\ att t = true) ls) as O.
    destruct (O (asys_new ranges nodes d) y) as [O1 _ _ _ O5]; [|apply origin_new|exact E|]; clear O.
    { intros [| | | | | | | |] Hl; cbn; try exact Logic.I; [intros A; split; [eapply LT, Hl|exact A]|eapply LM, Hl]. }
    assert (G : forall t, typed_compact_tx t /\ att t = true -> exists tx, vouched tx t).
    { intros t [T A]. eapply attested_vouched; eauto. }
    assert (TS : forall t, t ∈ map nt_tx (ys_sent y) -> typed_compact_tx t /\ att t = true).
    { intros t Ht. apply elem_of_list_fmap in Ht as (n & -> & Hn). by apply O1. }
    destruct (choose_all vouched (map nt_tx (ys_sent y))) as [hs Vs]; [intros t Ht; by apply G, TS|].
    destruct (choose_all vouched (chain_txs (ys_chain y))) as [h V]; [intros t Ht; apply G, (O5 t Ht)|].
    split; [by exists hs, h|]. clear hs h Vs V. intros hs h Vs V.
    assert (GG : forall h l, Forall2 vouched h l -> Forall genuine h).
    { intros h0 l0 H. induction H as [|? ? ? ? [? _]]; by constructor. }
    pose proof (GG _ _ Vs) as Gs. pose proof (GG _ _ V) as Gh.
    assert (Ts : Forall typed_full_tx hs) by (eapply Forall_impl; [|exact Gs]; by intros ? [? _]).
    destruct (vouched_stand hs _ F ltac:(apply Forall_forall; intros t Ht; apply (TS t); by apply elem_of_list_In) Vs) as [Ss|K]; [|by right; right; right; left].
    destruct (apart_texts sha hs F Ts) as [[_ TAs]|K]; [|by right; left].
    pose proof (honest_stand hs _ Gs Ss TAs) as HON.
    pose proof (system_no_double_spend att d ranges nodes ls y E HON H1 H2) as ND.
    destruct (vouched_stand h _ F ltac:(apply Forall_forall; intros t Ht; apply (O5 t); by apply elem_of_list_In) V) as [S|K]; [|by right; right; right; right].
    destruct (conserved sha pk_parse schnorr h _ F Gh S ND OI) as [[B W]|K]; [|by right; right; left].
    left. split; [exact S|]. split; [exact B|]. split; [exact W|].
    intros i s Hi Hb x. destruct (system_shards att d ranges nodes ls y i s E HON H1 H2 Hi) as (_ & n & Ln & En & SH).
    rewrite En in Hb. unfold len in Hb. apply Nat2N.inj in Hb. subst n. rewrite firstn_all in SH.
    rewrite (SH x), (proj2 B x). reflexivity.
  Qed.
End System.

(** ** Ethereum transactions *)

Lemma evm_id_unique (keccak : bytes -> bytes) c t t' : c < 2 ^ 64 ->
  well_formed t -> only_own_fields t -> legacy_chain c t -> fits c t ->
  well_formed t' -> only_own_fields t' -> legacy_chain c t' -> fits c t' ->
  EvmTxModel.tx_id keccak c t = EvmTxModel.tx_id keccak c t' ->
  t = t' \/ collides keccak [tx_encode c false t; tx_encode c false t'].
Proof.
  intros C W O L F W' O' L' F' E.
  destruct (decide (tx_encode c false t = tx_encode c false t')) as [D|D].
  - left. by apply (EvmTxProofs.injective c).
  - right. exists (tx_encode c false t), (tx_encode c false t'). split; [left|]. split; [right; left|]. done.
Qed.

Lemma evm_sig_hash_unique (keccak : bytes -> bytes) c c' t t' : c < 2 ^ 64 -> c' < 2 ^ 64 ->
  well_formed t -> only_own_fields t -> fits c t ->
  well_formed t' -> only_own_fields t' -> fits c' t' ->
  sig_hash keccak c t = sig_hash keccak c' t' ->
  (c = c' /\ t' = with_sig t (t_sig t')) \/ collides keccak [tx_encode c true t; tx_encode c' true t'].
Proof.
  intros C C' W O F W' O' F' E.
  destruct (decide (tx_encode c true t = tx_encode c' true t')) as [D|D].
  - left. by apply signed_inj.
  - right. exists (tx_encode c true t), (tx_encode c' true t'). split; [left|]. split; [right; left|]. done.
Qed.

(** ** Seeds *)

Lemma seeds_apart sha c v n k k' : (k < n)%nat -> (k' < n)%nat -> N.of_nat n <= two64 -> is_hash c -> v < two64 ->
  sha_fits sha ->
  input_hash sha (seed_coin sha c v (N.of_nat k)) = input_hash sha (seed_coin sha c v (N.of_nat k')) ->
  k = k' \/ collides sha (seed_texts sha c v n).
Proof.
  intros K K' L C V HS E.
  pose proof (seed_typed c v (N.of_nat k) ltac:(lia) C V) as T.
  pose proof (seed_typed c v (N.of_nat k') ltac:(lia) C V) as T'.
  assert (In1 : forall j, (j < n)%nat -> id_text (seed_tx c v (N.of_nat j)) ∈ seed_texts sha c v n /\
                coin_text (seed_coin sha c v (N.of_nat j)) ∈ seed_texts sha c v n).
  { intros j J. split; apply elem_of_list_In, in_concat; eexists; (split; [apply in_map_iff; exists j; split;
      [reflexivity|apply in_seq; lia]|]); cbn; auto. }
  destruct (In1 k K) as [I1 I2], (In1 k' K') as [J1 J2].
  rewrite !coin_id_text in E. apply (hash_eq sha _ _ (seed_texts sha c v n)) in E as [E|E]; [|by right|done|done].
  apply coin_text_inj in E.
  - unfold seed_coin in E. injection E as E. fold (seed_tx c v (N.of_nat k)) in E. fold (seed_tx c v (N.of_nat k')) in E.
    rewrite !tx_id_text in E. apply (hash_eq sha _ _ (seed_texts sha c v n)) in E as [E|E]; [|by right|done|done].
    apply id_text_inj in E as [E _]; [|done|done]. cbn [tx_inputs seed_tx] in E. left. injection E as E. lia.
  - apply (dom_input_of_output sha (seed_tx c v (N.of_nat k)) 0 (Output c v) T); [apply HS|done].
  - apply (dom_input_of_output sha (seed_tx c v (N.of_nat k')) 0 (Output c v) T'); [apply HS|done].
Qed.

Lemma seeds_nodup sha c v n : N.of_nat n <= two64 -> is_hash c -> v < two64 -> sha_fits sha ->
  base.NoDup (map (fun k => input_hash sha (seed_coin sha c v (N.of_nat k))) (seq 0 n))
  \/ collides sha (seed_texts sha c v n).
Proof.
  intros L C V HS. set (f := fun k => input_hash sha (seed_coin sha c v (N.of_nat k))).
  assert (Q : forall m, (m <= n)%nat -> base.NoDup (map f (seq 0 m)) \/ collides sha (seed_texts sha c v n)).
  { induction m as [|m IH]; intros M; [left; constructor|].
    destruct IH as [IH|IH]; [lia| |by right]. rewrite seq_S, map_app. cbn [map Nat.add].
    destruct (decide (f m ∈ map f (seq 0 m))) as [I|I].
    - right. apply elem_of_list_In, in_map_iff in I as (k & E & Hk). apply in_seq in Hk. unfold f in E.
      destruct (seeds_apart sha c v n k m) as [E'|E']; try done; lia.
    - left. apply NoDup_app. split_and!; [done| |apply NoDup_singleton].
      intros x Hx Z. apply elem_of_list_singleton in Z. subst. done. }
  by apply Q.
Qed.

Lemma shard_gets {D} sha pub_of (o : options (D := D)) files sk s : sha_fits sha ->
  o_twophase o = true -> o_seed_from (o_shards o) <> o_seed_to (o_shards o) -> seed_key o = Some sk ->
  shard_seeder sha pub_of o = Val files -> s < seed_shards o ->
  shard_preseed o files s = Some (seeder_hashes sha pub_of o sk s) \/
  collides sha (seed_texts sha (commit_of sha (pub_of sk)) (seed_amount o) (N.to_nat (seed_count o))).
Proof.
  intros HS M L K H S. unfold shard_seeder in H. rewrite K, M in H.
  rewrite (proj2 (N.eqb_neq (seed_shards o) 0)) in H by lia. injection H as <-.
  unfold shard_preseed. rewrite (proj2 (N.eqb_neq _ _)) by done.
  rewrite (find_name pub_of (preseed_name true (seed_count o))
    (fun i => enc (c_uset c_hash) (seeder_hashes sha pub_of o sk i))); [|by apply preseed_inj|done].
  cbn [snd].
  assert (B : seed_count o < two64) by (apply N.mod_lt; done).
  assert (A : seed_amount o < two64).
  { unfold seed_amount. transitivity (2 ^ 32); [|done]. apply N.mod_lt. done. }
  destruct (seeds_nodup sha (commit_of sha (pub_of sk)) (seed_amount o) (N.to_nat (seed_count o))) as [ND|C];
    [lia|apply HS|done|done| |by right].
  left. pose proof (l_rt _ (lawful_uset c_hash lawful_hash consuming_hash) (seeder_hashes sha pub_of o sk s) []) as R.
  rewrite app_nil_r in R. rewrite R; [done|]. cbn [dom c_uset]. split_and!.
  - assert (Q : (length (seeder_hashes sha pub_of o sk s) <= N.to_nat (seed_count o))%nat).
    { etransitivity; [apply filter_count|]. by rewrite map_length, seq_length. }
    unfold len. change hash with N in Q. lia.
  - unfold seeder_hashes. apply NoDup_ListNoDup. apply List.NoDup_filter. apply NoDup_ListNoDup.
    replace (map _ _) with (map (fun k => input_hash sha (seed_coin sha (commit_of sha (pub_of sk)) (seed_amount o) (N.of_nat k)))
      (seq 0 (N.to_nat (seed_count o)))); [done|].
    apply map_ext. intros k. symmetry. apply seeded_hash_coin.
  - by apply seeder_typed.
Qed.

(** A check that none of the texts collide. *)
Definition apart_all (hash : bytes -> N) (texts : list bytes) : bool :=
  forallb (fun x => forallb (fun y => implb (hash x =? hash y) (bool_decide (x = y))) texts) texts.
Lemma apart_all_ok hash texts : apart_all hash texts = true -> ~ collides hash texts.
Proof.
  unfold apart_all. intros H (x & y & X & Y & N & E). rewrite forallb_forall in H.
  specialize (H x (proj1 (elem_of_list_In _ _) X)). rewrite forallb_forall in H.
  specialize (H y (proj1 (elem_of_list_In _ _) Y)).
  rewrite E, N.eqb_refl in H. by apply bool_decide_eq_true in H.
Qed.
