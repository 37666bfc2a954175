(** Model of the command line client, src/uhs/client/client-cli.cpp: which function of the
    client a command line calls, with which arguments.

    The configuration is taken to be read and the client to be initialised
    (client-cli.cpp:189-224). What a command prints besides its effect on the client is not
    modelled. An argument is the list of its character codes, as std::vector<std::string>
    args of config::get_args (config.cpp) holds it. *)
From Coq Require Import NArith String.
From stdpp Require Import base option list.
From Verif Require Import Base CodecModel TxModel.
From Verif Require HexModel ConfigModel AddressModel.
Open Scope N_scope.

Definition string := list N.

Definition lit (x : String.string) : string := ConfigModel.txt x.
Arguments lit x%string.

(** The functions of cbdc::client that the commands call. *)
Inductive call :=
  | CallMint (n_outputs output_val : N)
  | CallSend (value : N) (payee : bytes)
  | CallFan (count value : N) (payee : bytes)
  | CallSync
  | CallNewAddress
  | CallInfo
  | CallImport (i : input)
  | CallConfirm (tx_id : bytes).

(** How the program ends: it calls the client, it stops with a message, an exception
    nobody catches ends it, or its behaviour is undefined. *)
Inductive ended :=
  | Did (c : call)
  | Refused
  | Threw
  | Undefined.

(** [static_cast<uint32_t>]. *)
Definition to_u32 (v : N) : N := v mod 2 ^ 32.

(** std::stoul and std::stoull, where both are 64 bits wide. *)
Definition number (s : string) (f : N -> ended) : ended :=
  match ConfigModel.stoull s with
  | ConfigModel.Val v => f v
  | _ => Threw
  end.

(** cbdc::address::decode of an argument. *)
Definition payee (s : string) (f : bytes -> ended) : ended :=
  match AddressModel.address_decode s with
  | AddressModel.Key k => f k
  | AddressModel.Rejected => Refused
  | AddressModel.OutOfBounds => Undefined
  end.

(** [args[i]]: undefined beyond the end. *)
Definition arg (args : list string) (i : nat) (f : string -> ended) : ended :=
  match args !! i with
  | Some s => f s
  | None => Undefined
  end.

(** mint_command, client-cli.cpp:19-36. *)
Definition mint_command (args : list string) : ended :=
  if (length args <? 7)%nat then Refused
  else arg args 5 (fun a5 => number a5 (fun n_outputs =>
       arg args 6 (fun a6 => number a6 (fun output_val =>
       Did (CallMint n_outputs (to_u32 output_val)))))).

(** send_command, client-cli.cpp:66-90. *)
Definition send_command (args : list string) : ended :=
  if (length args <? 7)%nat then Refused
  else arg args 5 (fun a5 => number a5 (fun value =>
       arg args 6 (fun a6 => payee a6 (fun pubkey =>
       Did (CallSend (to_u32 value) pubkey))))).

(** fan_command, client-cli.cpp:92-118. *)
Definition fan_command (args : list string) : ended :=
  if (length args <? 8)%nat then Refused
  else arg args 6 (fun a6 => number a6 (fun value =>
       arg args 5 (fun a5 => number a5 (fun count =>
       arg args 7 (fun a7 => payee a7 (fun pubkey =>
       Did (CallFan (to_u32 count) (to_u32 value) pubkey))))))).

(** importinput_command, client-cli.cpp:144-160. *)
Definition importinput_command (args : list string) : ended :=
  arg args 5 (fun a5 =>
    match HexModel.from_hex a5 with
    | None => Refused
    | Some b => match from_buffer c_input b with
                | Ok (Some i) _ => Did (CallImport i)
                | Ok None _ => Refused
                | _ => Threw
                end
    end).

(** confirmtx_command, client-cli.cpp:162-174. A text that does not name 32 bytes leaves part
    of the hash uninitialised, or is written beyond its end. *)
Definition confirmtx_command (args : list string) : ended :=
  arg args 5 (fun a5 =>
    match HexModel.hash_from_hex a5 with
    | HexModel.HashIs h => Did (CallConfirm h)
    | _ => Undefined
    end).

(** main, client-cli.cpp:177-271. *)
Definition main (args : list string) : ended :=
  if (length args <? 5)%nat then Refused
  else arg args 4 (fun command =>
    if decide (command = lit "mint") then mint_command args
    else if decide (command = lit "send") then send_command args
    else if decide (command = lit "fan") then fan_command args
    else if decide (command = lit "sync") then Did CallSync
    else if decide (command = lit "newaddress") then Did CallNewAddress
    else if decide (command = lit "info") then Did CallInfo
    else if decide (command = lit "importinput") then importinput_command args
    else if decide (command = lit "confirmtx") then confirmtx_command args
    else Refused).
