(** Addresses: concrete cases and counterexamples. *)
From Coq Require Import NArith String.
From stdpp Require Import base option list.
From Verif Require Import Base AddressModel AddressSpec ConfigModel CliModel.
Open Scope N_scope.

(** The bytes 1 to 32, and an address that was printed for them. *)
Notation some_key := (map N.of_nat (seq 1 32)).
Notation some_address := (lit "usd1qqqsyqcyq5rqwzqfpg9scrgwpugpzysnzs23v9ccrydpk8qarc0jqqvpueq").

Lemma printed_case : newaddress some_key = Some some_address /\
  address_decode some_address = Key some_key /\
  address_decode (upper some_address) = Key some_key.
Proof. vm_compute. auto. Qed.

Lemma typo_case :
  (* the last "q" of the key is read as "9" *)
  address_decode (lit "usd1qqqsyqcyq5rqwzqfpg9scrgwpugpzysnzs23v9ccrydpk8qarc0j9qvpueq") = Rejected /\
  (* two characters swapped *)
  address_decode (lit "usd1qqqsyqcyq5rqwqzfpg9scrgwpugpzysnzs23v9ccrydpk8qarc0jqqvpueq") = Rejected /\
  (* one upper-case letter *)
  address_decode (lit "usd1qqqsyqcyq5rqwZqfpg9scrgwpugpzysnzs23v9ccrydpk8qarc0jqqvpueq") = Rejected /\
  differences (lit "usd1qqqsyqcyq5rqwqzfpg9scrgwpugpzysnzs23v9ccrydpk8qarc0jqqvpueq") some_address = 2%nat.
Proof. vm_compute. auto. Qed.

Lemma empty_witness : address_decode (lit "usd12jxqnw") = OutOfBounds.
Proof. vm_compute. reflexivity. Qed.

Lemma second_witness :
  address_decode (lit "usd1qqqsyqcyq5rqwzqfpg9scrgwpugpzysnzs23v9ccrydpk8qarc0jpa64fyj") = Key some_key.
Proof. vm_compute. reflexivity. Qed.

Notation one_key :=
  ([0; 0; 0; 0; 0; 0; 0; 1; 100; 185; 17; 224] ++ repeat 0 20).
Notation other_key :=
  ([0; 0; 0; 0; 0; 0; 0; 1; 100; 185; 17; 227; 128] ++ repeat 0 19).

Lemma inserted_witness :
  newaddress one_key = Some (lit "usd1qqqqqqqqqqqqqqtyhyg7qqqqqqqqqqqqqqqqqqqqqqqqqqqqqqqqqevyghn") /\
  address_decode (lit "usd1qqqqqqqqqqqqqqtyhyg78qqqqqqqqqqqqqqqqqqqqqqqqqqqqqqqqqevyghn") = Key other_key.
Proof. vm_compute. auto. Qed.

Lemma inserted_one :
  one_inserted (lit "usd1qqqqqqqqqqqqqqtyhyg7qqqqqqqqqqqqqqqqqqqqqqqqqqqqqqqqqevyghn")
    (lit "usd1qqqqqqqqqqqqqqtyhyg78qqqqqqqqqqqqqqqqqqqqqqqqqqqqqqqqqevyghn").
Proof.
  exists (lit "usd1qqqqqqqqqqqqqqtyhyg7"), 56, (lit "qqqqqqqqqqqqqqqqqqqqqqqqqqqqqqqqqevyghn").
  vm_compute. auto.
Qed.

Lemma key_check k : (length k =? 32)%nat && forallb (fun b => b <? 256) k = true -> is_key k.
Proof.
  intros H. apply andb_true_iff in H as [H1 H2]. split; [by apply Nat.eqb_eq|].
  induction k as [|b k IH] using rev_ind; [by apply list.Forall_nil|].
  clear IH H1. revert H2. induction (k ++ [b]) as [|c l IH]; intros H; [by apply list.Forall_nil|].
  cbn in H. apply andb_true_iff in H as [Hc H]. apply list.Forall_cons.
  split; [by apply N.ltb_lt|by apply IH].
Qed.

Lemma some_key_ok : is_key some_key.
Proof. apply key_check. by vm_compute. Qed.
Lemma one_key_ok : is_key one_key.
Proof. apply key_check. by vm_compute. Qed.

Theorem empty_refuted : exists s, address_decode s = OutOfBounds.
Proof. exists (lit "usd12jxqnw"). apply empty_witness. Qed.

Theorem unique_refuted : exists s1 s2 k, lower s1 <> lower s2 /\ length s1 = length s2 /\
  address_decode s1 = Key k /\ address_decode s2 = Key k.
Proof.
  exists some_address, (lit "usd1qqqsyqcyq5rqwzqfpg9scrgwpugpzysnzs23v9ccrydpk8qarc0jpa64fyj"), some_key.
  split; [by vm_compute|]. split; [by vm_compute|]. split; [apply printed_case|apply second_witness].
Qed.

Theorem insertion_refuted : exists k a s k', is_key k /\ newaddress k = Some a /\
  one_inserted a s /\ address_decode s = Key k' /\ k' <> k.
Proof.
  exists one_key, (lit "usd1qqqqqqqqqqqqqqtyhyg7qqqqqqqqqqqqqqqqqqqqqqqqqqqqqqqqqevyghn"),
    (lit "usd1qqqqqqqqqqqqqqtyhyg78qqqqqqqqqqqqqqqqqqqqqqqqqqqqqqqqqevyghn"), other_key.
  split; [apply one_key_ok|]. split; [apply inserted_witness|]. split; [apply inserted_one|].
  split; [apply inserted_witness|]. by vm_compute.
Qed.
