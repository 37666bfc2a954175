(** The command line client: concrete cases and counterexamples. *)
From Coq Require Import NArith String.
From stdpp Require Import base option list.
From Verif Require Import Base CodecModel TxModel CliModel CliSpec AddressSpec AddressExamples.
From Verif Require AddressModel.
Open Scope N_scope.

Notation typed command rest :=
  (main (command_line (lit "client-cli") (lit "2pc.cfg") (lit "client.dat") (lit "wallet.dat")
     (lit command) rest)).

Lemma send_case : typed "send" [lit "30"; some_address] = Did (CallSend 30 some_key).
Proof. vm_compute. reflexivity. Qed.

Lemma fan_case : typed "fan" [lit "2"; lit "30"; some_address] = Did (CallFan 2 30 some_key).
Proof. vm_compute. reflexivity. Qed.

Lemma mint_case : typed "mint" [lit "10"; lit "5"] = Did (CallMint 10 5).
Proof. vm_compute. reflexivity. Qed.

Lemma misspelt_case :
  typed "send" [lit "30"; lit "usd1qqqsyqcyq5rqwqzfpg9scrgwpugpzysnzs23v9ccrydpk8qarc0jqqvpueq"]
  = Refused.
Proof. vm_compute. reflexivity. Qed.

Lemma wrapped_witness : typed "send" [lit "4294967301"; some_address] = Did (CallSend 5 some_key).
Proof. vm_compute. reflexivity. Qed.

Lemma separator_witness : typed "send" [lit "1,000"; some_address] = Did (CallSend 1 some_key).
Proof. vm_compute. reflexivity. Qed.

Lemma negative_witness : typed "send" [lit "-1"; some_address] = Did (CallSend 4294967295 some_key).
Proof. vm_compute. reflexivity. Qed.

Lemma word_witness : typed "send" [lit "ten"; some_address] = Threw.
Proof. vm_compute. reflexivity. Qed.

Lemma missing_witness : typed "importinput" [] = Undefined /\ typed "confirmtx" [] = Undefined.
Proof. vm_compute. auto. Qed.

Lemma short_witness : typed "confirmtx" [lit "00ff"] = Undefined.
Proof. vm_compute. reflexivity. Qed.

Lemma address_witness : typed "send" [lit "30"; lit "usd12jxqnw"] = Undefined.
Proof. vm_compute. reflexivity. Qed.

Lemma numeral_check t : negb (length t =? 0)%nat && forallb (fun c => (48 <=? c) && (c <=? 57)) t = true ->
  numeral t.
Proof.
  intros H. apply andb_true_iff in H as [H1 H2]. split.
  - intros ->. done.
  - clear H1. induction t as [|c t IH]; [by apply list.Forall_nil|].
    cbn in H2. apply andb_true_iff in H2 as [Hc H2]. apply andb_true_iff in Hc as [A B].
    apply list.Forall_cons. split; [split; by apply N.leb_le|by apply IH].
Qed.

Lemma thirty_case : numeral (lit "30") /\ numeral_value (lit "30") = 30.
Proof. split; [apply numeral_check; by vm_compute|by vm_compute]. Qed.

Theorem amount_refuted : exists args t a v k, numeral t /\
  args = command_line (lit "client-cli") (lit "2pc.cfg") (lit "client.dat") (lit "wallet.dat")
    (lit "send") [t; a] /\
  main args = Did (CallSend v k) /\ v <> numeral_value t.
Proof.
  eexists _, (lit "4294967301"), some_address, 5, some_key.
  split; [apply numeral_check; by vm_compute|]. split; [reflexivity|].
  split; [apply wrapped_witness|by vm_compute].
Qed.
