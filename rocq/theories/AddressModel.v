(** Model of addresses: 3rdparty/bech32/bech32.cpp, ConvertBits of
    3rdparty/bech32/util/strencodings.h:180-201, address::decode of
    src/uhs/client/client.cpp:27-59 and newaddress_command of
    src/uhs/client/client-cli.cpp:120-142.

    A string is the list of its character codes (0 to 255), a std::vector<uint8_t> the list
    of its values. Numbers of type uint32_t and size_t are [N]: the operations here (xor,
    masks, shifts of masked values) do not leave their ranges. What the programs print on
    std::cout besides the address is not modelled. *)
From stdpp Require Import base list option.
From Coq Require Import NArith ZArith.
From Verif Require Import Base.
Open Scope N_scope.

Definition string := list N.

(** * bech32.cpp *)

(** CHARSET, bech32.cpp:16: "qpzry9x8gf2tvdw0s3jn54khce6mua7l". *)
Definition charset : list N :=
  [113;112;122;114;121;57;120;56;103;102;50;116;118;100;119;48;
   115;51;106;110;53;52;107;104;99;101;54;109;117;97;55;108].

(** CHARSET_REV, bech32.cpp:19-28. *)
Definition charset_rev : list Z := (
  [-1; -1; -1; -1; -1; -1; -1; -1; -1; -1; -1; -1; -1; -1; -1; -1;
   -1; -1; -1; -1; -1; -1; -1; -1; -1; -1; -1; -1; -1; -1; -1; -1;
   -1; -1; -1; -1; -1; -1; -1; -1; -1; -1; -1; -1; -1; -1; -1; -1;
   15; -1; 10; 17; 21; 20; 26; 30;  7;  5; -1; -1; -1; -1; -1; -1;
   -1; 29; -1; 24; 13; 25;  9;  8; 23; -1; 18; 22; 31; 27; 19; -1;
    1;  0;  3; 16; 11; 28; 12; 14;  6;  4;  2; -1; -1; -1; -1; -1;
   -1; 29; -1; 24; 13; 25;  9;  8; 23; -1; 18; 22; 31; 27; 19; -1;
    1;  0;  3; 16; 11; 28; 12; 14;  6;  4;  2; -1; -1; -1; -1; -1])%Z.

(** [if(c0 & (1 << n)) c ^= k;] *)
Definition add_if (c0 n k c : N) : N := if N.testbit c0 n then N.lxor c k else c.

(** The body of the loop of PolyMod, bech32.cpp:77-87. *)
Definition polymod_step (c v : N) : N :=
  let c0 := N.shiftr c 25 in
  let c1 := N.lxor (N.shiftl (N.land c 0x1ffffff) 5) v in
  add_if c0 4 0x2a1462b3
    (add_if c0 3 0x3d4233dd
       (add_if c0 2 0x1ea119fa
          (add_if c0 1 0x26508e6d
             (add_if c0 0 0x3b6a57b2 c1)))).

(** PolyMod, bech32.cpp:33-90. *)
Definition polymod (v : list N) : N := fold_left polymod_step v 1.

(** LowerCase, bech32.cpp:93-96. *)
Definition lower_case (c : N) : N := if (65 <=? c) && (c <=? 90) then c - 65 + 97 else c.

(** ExpandHRP, bech32.cpp:99-111. *)
Definition expand_hrp (hrp : string) : list N :=
  map (fun c => N.shiftr c 5) hrp ++ [0] ++ map (fun c => N.land c 31) hrp.

(** VerifyChecksum, bech32.cpp:114-121. *)
Definition verify_checksum (hrp : string) (values : list N) : bool :=
  polymod (expand_hrp hrp ++ values) =? 1.

(** CreateChecksum, bech32.cpp:124-135. *)
Definition create_checksum (hrp : string) (values : list N) : list N :=
  let md := N.lxor (polymod (expand_hrp hrp ++ values ++ repeat 0 6)) 1 in
  map (fun i => N.land (N.shiftr md (5 * (5 - i))) 31) [0; 1; 2; 3; 4; 5].

(** Encode, bech32.cpp:143-156. [None]: the assertion on the human-readable part fails, or
    a value lies outside of CHARSET. *)
Definition encode (hrp : string) (values : list N) : option string :=
  if forallb (fun c => (c <? 65) || (90 <? c)) hrp then
    match mapM (fun v => charset !! N.to_nat v) (values ++ create_checksum hrp values) with
    | Some cs => Some (hrp ++ [49] ++ cs)
    | None => None
    end
  else None.

(** str.rfind('1'). *)
Fixpoint rfind1 (s : string) : option nat :=
  match s with
  | [] => None
  | c :: r => match rfind1 r with
              | Some p => Some (S p)
              | None => if c =? 49 then Some O else None
              end
  end.

(** The value of a character, bech32.cpp:174-180. Every character was checked to be below
    127 before. *)
Definition symbol (c : N) : option N :=
  match charset_rev !! N.to_nat c with
  | Some v => if (v =? -1)%Z then None else Some (Z.to_N v)
  | None => None
  end.

Definition is_lower (c : N) : bool := (97 <=? c) && (c <=? 122).
Definition is_upper (c : N) : bool := (65 <=? c) && (c <=? 90).

(** Decode, bech32.cpp:159-190. [return {}] returns an empty human-readable part. *)
Definition decode (str : string) : string * list N :=
  if existsb (fun c => negb (is_lower c) && negb (is_upper c) && ((c <? 33) || (126 <? c))) str
  then ([], [])
  else if existsb is_lower str && existsb is_upper str then ([], [])
  else match rfind1 str with
       | None => ([], [])
       | Some pos =>
           if (90 <? length str)%nat || (pos =? 0)%nat || (length str <? pos + 7)%nat
           then ([], [])
           else match mapM symbol (drop (S pos) str) with
                | None => ([], [])
                | Some values =>
                    let hrp := map lower_case (take pos str) in
                    if verify_checksum hrp values
                    then (hrp, take (length values - 6) values)
                    else ([], [])
                end
       end.

(** * ConvertBits, strencodings.h:180-201 *)

(** [while(bits >= tobits)]: the values given to outfn and the bits left. The fuel is the
    number of bits. *)
Fixpoint drain (fuel : nat) (tobits acc bits : N) : list N * N :=
  match fuel with
  | O => ([], bits)
  | S f =>
      if bits <? tobits then ([], bits)
      else let bits' := bits - tobits in
           let '(out, b) := drain f tobits acc bits' in
           (N.land (N.shiftr acc bits') (2 ^ tobits - 1) :: out, b)
  end.

(** The loop over the input: the values given to outfn, acc and bits. *)
Fixpoint convert_loop (frombits tobits acc bits : N) (l : list N) : list N * N * N :=
  match l with
  | [] => ([], acc, bits)
  | v :: r =>
      let acc' := N.land (N.lor (N.shiftl acc frombits) v)
                         (2 ^ (frombits + tobits - 1) - 1) in
      let '(out, b) := drain (N.to_nat (bits + frombits)) tobits acc' (bits + frombits) in
      let '(rest, acc2, b2) := convert_loop frombits tobits acc' b r in
      (out ++ rest, acc2, b2)
  end.

(** The values given to outfn, and the result. *)
Definition convert_bits (frombits tobits : N) (pad : bool) (l : list N) : list N * bool :=
  let '(out, acc, bits) := convert_loop frombits tobits 0 0 l in
  let last := N.land (N.shiftl acc (tobits - bits)) (2 ^ tobits - 1) in
  if pad then (if bits =? 0 then out else out ++ [last], true)
  else (out, negb ((frombits <=? bits) || negb (last =? 0))).

(** * The client *)

(** config::bech32_hrp, config.hpp:34: "usd". *)
Definition bech32_hrp : string := [117; 115; 100].

(** client::address_type::public_key, client.hpp:232-235. *)
Definition type_public_key : N := 0.

(** What address::decode does: it returns a key, or std::nullopt, or it reads [data[0]] of
    an empty vector. *)
Inductive decoded :=
  | Key (k : bytes)
  | Rejected
  | OutOfBounds.

(** address::decode, client.cpp:27-59. What ConvertBits returns is ignored. *)
Definition address_decode (addr_str : string) : decoded :=
  let '(hrp, enc_data) := decode addr_str in
  if decide (hrp = bech32_hrp) then
    let '(data, _) := convert_bits 5 8 false enc_data in
    match data with
    | [] => OutOfBounds
    | b :: rest =>
        if negb (b =? type_public_key) || negb (length data =? 32 + 1)%nat
        then Rejected
        else Key rest
    end
  else Rejected.

(** newaddress_command, client-cli.cpp:120-142, for the key client.new_address() returns:
    what it prints. *)
Definition newaddress (key : bytes) : option string :=
  let '(data, _) := convert_bits 8 5 true (type_public_key :: key) in
  encode bech32_hrp data.
