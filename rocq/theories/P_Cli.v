(** C91: the command line client. *)
From Coq Require Import NArith String.
From stdpp Require Import base option list.
From Verif Require Import Base CodecModel CodecSpec TxModel CliModel CliSpec CliProofs CliExamples.
From Verif Require Import AddressSpec AddressExamples.
From Verif Require AddressModel.
Open Scope N_scope.

(** C91: "send" with an amount below 2^32 and an address pays that amount to the key of the
    address (missing: larger amounts, refuted below). *)
Theorem C91_send_partial p cf cl w t a more k : numeral t -> numeral_value t < 2 ^ 32 ->
  AddressModel.address_decode a = AddressModel.Key k ->
  main (command_line p cf cl w (lit "send") (t :: a :: more)) = Did (CallSend (numeral_value t) k).
Proof. exact (send_plain p cf cl w t a more k). Qed.
Print Assumptions C91_send_partial.

Example C91_send_example : numeral (lit "30") /\ numeral_value (lit "30") = 30 /\
  AddressModel.address_decode some_address = AddressModel.Key some_key.
Proof. exact (conj (proj1 thirty_case) (conj (proj2 thirty_case) (proj1 (proj2 printed_case)))). Qed.

(** C91: the same for "fan" and "mint". *)
Theorem C91_fan_partial p cf cl w c t a more k : numeral c -> numeral t ->
  numeral_value c < 2 ^ 32 -> numeral_value t < 2 ^ 32 ->
  AddressModel.address_decode a = AddressModel.Key k ->
  main (command_line p cf cl w (lit "fan") (c :: t :: a :: more))
  = Did (CallFan (numeral_value c) (numeral_value t) k).
Proof. exact (fan_plain p cf cl w c t a more k). Qed.
Print Assumptions C91_fan_partial.

Example C91_fan_example : typed "fan" [lit "2"; lit "30"; some_address] = Did (CallFan 2 30 some_key).
Proof. exact fan_case. Qed.

Theorem C91_mint_partial p cf cl w n t more : numeral n -> numeral t ->
  numeral_value n < 2 ^ 64 -> numeral_value t < 2 ^ 32 ->
  main (command_line p cf cl w (lit "mint") (n :: t :: more))
  = Did (CallMint (numeral_value n) (numeral_value t)).
Proof. exact (mint_plain p cf cl w n t more). Qed.
Print Assumptions C91_mint_partial.

Example C91_mint_example : typed "mint" [lit "10"; lit "5"] = Did (CallMint 10 5).
Proof. exact mint_case. Qed.

(** C91: nothing is paid unless "send" or "fan" was typed, with an address that is accepted;
    it goes to the key of that address, and the amount is what the digits at the start of the
    argument say, modulo 2^32. *)
Theorem C91_only_send args v k : main args = Did (CallSend v k) ->
  args !! 4%nat = Some (lit "send") /\ exists t a,
    args !! 5%nat = Some t /\ args !! 6%nat = Some a /\ read_as t v /\
    AddressModel.address_decode a = AddressModel.Key k.
Proof. exact (main_did args (CallSend v k)). Qed.
Print Assumptions C91_only_send.

Theorem C91_only_fan args n v k : main args = Did (CallFan n v k) ->
  args !! 4%nat = Some (lit "fan") /\ exists m t a,
    args !! 5%nat = Some m /\ args !! 6%nat = Some t /\ args !! 7%nat = Some a /\
    read_as m n /\ read_as t v /\ AddressModel.address_decode a = AddressModel.Key k.
Proof. exact (main_did args (CallFan n v k)). Qed.
Print Assumptions C91_only_fan.

Theorem C91_only_mint args n v : main args = Did (CallMint n v) ->
  args !! 4%nat = Some (lit "mint") /\ exists m t,
    args !! 5%nat = Some m /\ args !! 6%nat = Some t /\
    ConfigModel.stoull m = ConfigModel.Val n /\ read_as t v.
Proof. exact (main_did args (CallMint n v)). Qed.
Print Assumptions C91_only_mint.

Theorem C91_only_import args i : main args = Did (CallImport i) ->
  args !! 4%nat = Some (lit "importinput") /\ exists h b s,
    args !! 5%nat = Some h /\ HexModel.from_hex h = Some b /\ from_buffer c_input b = Ok (Some i) s.
Proof. exact (main_did args (CallImport i)). Qed.
Print Assumptions C91_only_import.

Example C91_only_example : typed "send" [lit "30"; some_address] = Did (CallSend 30 some_key).
Proof. exact send_case. Qed.

(** C91: with an address that is refused nothing is done. *)
Theorem C91_bad_address p cf cl w t a more : numeral t -> numeral_value t < 2 ^ 64 ->
  AddressModel.address_decode a = AddressModel.Rejected ->
  main (command_line p cf cl w (lit "send") (t :: a :: more)) = Refused.
Proof. exact (bad_address p cf cl w t a more). Qed.
Print Assumptions C91_bad_address.

Example C91_bad_address_example :
  typed "send" [lit "30"; lit "usd1qqqsyqcyq5rqwqzfpg9scrgwpugpzysnzs23v9ccrydpk8qarc0jqqvpueq"]
  = Refused.
Proof. exact misspelt_case. Qed.

(** C91: a user who types what the payee's client printed pays the payee, and one who gets up
    to four characters of it wrong pays nobody. *)
Theorem C91_printed_partial p cf cl w t more k : is_key k -> numeral t ->
  numeral_value t < 2 ^ 32 -> exists a, AddressModel.newaddress k = Some a /\
  main (command_line p cf cl w (lit "send") (t :: a :: more)) = Did (CallSend (numeral_value t) k).
Proof. exact (send_printed p cf cl w t more k). Qed.
Print Assumptions C91_printed_partial.

Theorem C91_misspelt p cf cl w t more k a s : is_key k -> numeral t ->
  numeral_value t < 2 ^ 64 -> AddressModel.newaddress k = Some a -> length s = length a ->
  (1 <= differences (lower s) a <= 4)%nat ->
  main (command_line p cf cl w (lit "send") (t :: s :: more)) = Refused.
Proof. exact (send_misspelt p cf cl w t more k a s). Qed.
Print Assumptions C91_misspelt.

(** C91: what "send" prints for the recipient, the coin's encoding in hexadecimal, is what
    "importinput" imports. *)
Theorem C91_import p cf cl w i more : dom c_input i ->
  main (command_line p cf cl w (lit "importinput") (in_hex (encoding c_input i) :: more))
  = Did (CallImport i).
Proof. exact (import_back p cf cl w i more). Qed.
Print Assumptions C91_import.

(** C91: any other text is refused. *)
Theorem C91_import_else p cf cl w h more :
  (forall i, main (command_line p cf cl w (lit "importinput") (h :: more)) <> Did (CallImport i)) ->
  main (command_line p cf cl w (lit "importinput") (h :: more)) = Refused.
Proof. exact (import_else p cf cl w h more). Qed.
Print Assumptions C91_import_else.

Example C91_import_else_example : typed "importinput" [lit "00"] = Refused.
Proof. vm_compute. reflexivity. Qed.

Example C91_import_example : dom c_input (Input (OutPoint 7 1) (Output 9 30)).
Proof. vm_compute. auto. Qed.

(** C91: a transaction ID in hexadecimal is confirmed. *)
Theorem C91_confirm p cf cl w h more : length h = 32%nat -> Forall is_byte h ->
  main (command_line p cf cl w (lit "confirmtx") (in_hex h :: more)) = Did (CallConfirm h).
Proof. exact (confirm_back p cf cl w h more). Qed.
Print Assumptions C91_confirm.

(** C91: commands without arguments, unknown commands and missing arguments. *)
Theorem C91_others p cf cl w rest :
  main (command_line p cf cl w (lit "sync") rest) = Did CallSync /\
  main (command_line p cf cl w (lit "newaddress") rest) = Did CallNewAddress /\
  main (command_line p cf cl w (lit "info") rest) = Did CallInfo.
Proof. exact (other_commands p cf cl w rest). Qed.
Print Assumptions C91_others.

Theorem C91_unknown p cf cl w c rest :
  ~ In c [lit "mint"; lit "send"; lit "fan"; lit "sync"; lit "newaddress"; lit "info";
          lit "importinput"; lit "confirmtx"] ->
  main (command_line p cf cl w c rest) = Refused.
Proof. exact (unknown_command p cf cl w c rest). Qed.
Print Assumptions C91_unknown.

Theorem C91_too_short args : (length args < 5)%nat -> main args = Refused.
Proof. exact (too_short args). Qed.
Print Assumptions C91_too_short.

Theorem C91_too_few_partial p cf cl w rest : (length rest < 2)%nat ->
  main (command_line p cf cl w (lit "mint") rest) = Refused /\
  main (command_line p cf cl w (lit "send") rest) = Refused.
Proof. exact (too_few p cf cl w rest). Qed.
Print Assumptions C91_too_few_partial.

Theorem C91_too_few_fan p cf cl w rest : (length rest < 3)%nat ->
  main (command_line p cf cl w (lit "fan") rest) = Refused.
Proof. exact (too_few_fan p cf cl w rest). Qed.
Print Assumptions C91_too_few_fan.

(** C91: behaviour is undefined only for the two commands below and for short addresses. *)
Theorem C91_defined_partial args : main args = Undefined ->
  args !! 4%nat = Some (lit "importinput") \/ args !! 4%nat = Some (lit "confirmtx") \/
  exists a, In a args /\ (length a < 12)%nat /\
    AddressModel.address_decode a = AddressModel.OutOfBounds.
Proof. exact (main_undefined args). Qed.
Print Assumptions C91_defined_partial.

(** The amount that is paid need not be the one that was typed: 4294967301 pays 5. *)
Theorem C91_amount_refuted : exists args t a v k, numeral t /\
  args = command_line (lit "client-cli") (lit "2pc.cfg") (lit "client.dat") (lit "wallet.dat")
    (lit "send") [t; a] /\
  main args = Did (CallSend v k) /\ v <> numeral_value t.
Proof. exact amount_refuted. Qed.
Print Assumptions C91_amount_refuted.

(** A text that is not a number is not refused: "1,000" pays 1 and "-1" pays 4294967295. *)
Theorem C91_text_refuted :
  typed "send" [lit "1,000"; some_address] = Did (CallSend 1 some_key) /\
  typed "send" [lit "-1"; some_address] = Did (CallSend 4294967295 some_key).
Proof. exact (conj separator_witness negative_witness). Qed.
Print Assumptions C91_text_refuted.

(** A text without a number ends the program with an exception. *)
Theorem C91_word_refuted : typed "send" [lit "ten"; some_address] = Threw.
Proof. exact word_witness. Qed.
Print Assumptions C91_word_refuted.

(** A missing argument, a short transaction ID or an empty address: undefined behaviour. *)
Theorem C91_defined_refuted :
  typed "importinput" [] = Undefined /\ typed "confirmtx" [] = Undefined /\
  typed "confirmtx" [lit "00ff"] = Undefined /\
  typed "send" [lit "30"; lit "usd12jxqnw"] = Undefined.
Proof. exact (conj (proj1 missing_witness) (conj (proj2 missing_witness) (conj short_witness address_witness))). Qed.
Print Assumptions C91_defined_refuted.
