(** Proofs for property C93: the accounts written at the start. *)
From stdpp Require Import base option list.
From Coq Require Import NArith Lia.
From Verif Require Import Base ParsecShardModel RowModel RowSpec RowProofs.

Lemma first_true h : first_result h = Some true -> EResult AOk ∈ h.
Proof.
  unfold first_result. intros H.
  assert (X : true ∈ omap (fun e => match e with EResult AOk => Some true | EResult _ => Some false
                       | _ => None end) h).
  { destruct (omap _ h); [done|]. injection H as ->. left. }
  apply elem_of_list_omap in X as (e & He & Hx). by destruct e as [| | |[]| | |].
Qed.

Lemma mint_true rows :
  mint (map (fun p => put_row p.1.1 p.1.2 p.2) rows) = Minted true ->
  forall k v ins, (k, v, ins) ∈ rows -> stored k v (put_row k v ins).
Proof.
  unfold mint. destruct (existsb _ _); [done|]. induction rows as [|[[k v] ins] rows IH]; simpl.
  - by intros _ k v ins H%elem_of_nil.
  - destruct (first_result (put_row k v ins)) as [[|]|] eqn:E; [|done..].
    intros H k' v' ins' [[= -> -> ->]|Hin]%elem_of_cons; [|by apply IH].
    apply first_true, elem_of_list_lookup in E as [j Hj].
    apply put_true in Hj. rewrite <- (take_drop j (put_row k v ins)). by apply stored_grow.
Qed.
