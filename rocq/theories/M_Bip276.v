(** Model of script/address/BIP276.go and of ValidateAddress. *)
From Verif Require Export M_Address.

(** [fmt.Sprintf("%.2x", n)] for an [int]: sign, then the hexadecimal digits
    padded with zeros to at least two digits. *)
(** script/address/BIP276.go:47 (fmt, external). *)
Definition fmt_2x (n : Z) : bytes :=
  let ds := map hexdig (digits 16 (Z.to_N (Z.abs n))) in
  (if (n <? 0)%Z then str "-" else [])
  ++ repeat (hexdig 0) (2 - length ds) ++ ds.

(** script/address/BIP276.go:46-51 (createBIP276). [%s] of a string is the
    string itself, [%x] of a byte slice its lower-case hex. *)
Definition create_bip276 (prefix : bytes) (network version : Z) (data : bytes) : bytes * bytes :=
  let payload := prefix ++ str ":" ++ fmt_2x network ++ fmt_2x version ++ hex_encode data in
  (payload, hex_encode (firstn 4 (sha256d payload))).

(** script/address/BIP276.go:36-44 (EncodeBIP276). *)
Definition encode_bip276 (prefix : bytes) (network version : Z) (data : bytes) : bytes :=
  if ((version =? 0) || (255 <? version) || (network =? 0) || (255 <? network))%Z
  then str "ERROR"
  else let (p, c) := create_bip276 prefix network version data in p ++ c.

(** script/address/BIP276.go:56: [\d] of the regular expression. *)
Definition is_digit (c : byte) : bool := (0x30 <=? b2n c) && (b2n c <=? 0x39).

(** script/address/BIP276.go:56: the groups of the regular expression,
    [^(.+?):(\d{2})(\d{2})([0-9A-Fa-f]+)([0-9A-Fa-f]{8})$], tried with the prefix
    [p] already consumed and [rest] after the colon. [+?] prefers the shortest
    prefix, the greedy [+] leaves exactly 8 characters for the last group. *)
Definition bip276_tail (rest : bytes) : option (bytes * bytes * bytes * bytes) :=
  let ds := firstn 4 rest in
  let hs := skipn 4 rest in
  if Nat.leb 13 (length rest) && forallb is_digit ds && forallb is_hex hs
  then Some (firstn 2 ds, skipn 2 ds,
             firstn (length hs - 8) hs, skipn (length hs - 8) hs)
  else None.

(** script/address/BIP276.go:58-75: the groups [res[1..5]]. *)
Record bip276_match := mk_bm
  { bm_prefix : bytes; bm_ver : bytes; bm_net : bytes; bm_data : bytes; bm_sum : bytes }.

(** script/address/BIP276.go:56, 58: the lazy prefix: try each position from the left; [.] does not match a
    newline; the prefix must be non-empty. Simplification: Go's regexp works on
    UTF-8 runes; a prefix of arbitrary bytes decomposes into runes (an invalid
    byte is one rune matched by [.]), so only the newline byte matters. *)
Fixpoint bip276_match_from (p : bytes) (s : bytes) : option bip276_match :=
  match s with
  | [] => None
  | c :: r =>
      match (if byte_eqb c x3a then
               match p with
               | [] => None
               | _ => match bip276_tail r with
                      | Some (v, n, d, k) => Some (mk_bm p v n d k)
                      | None => None
                      end
               end
             else None) with
      | Some m => Some m
      | None => if byte_eqb c x0a then None else bip276_match_from (p ++ [c]) r
      end
  end.

(** script/address/BIP276.go:58: [validBIP276.FindStringSubmatch(text)]. *)
Definition bip276_regex (text : bytes) : option bip276_match := bip276_match_from [] text.

(** script/address/BIP276.go:62, 66: [strconv.Atoi] on two decimal digits: never fails there. *)
Definition atoi (ds : bytes) : Z :=
  fold_left (fun acc c => (10 * acc + (Z.of_N (b2n c) - 48))%Z) ds 0%Z.

(** script/address/BIP276.go:55-81 (DecodeBIP276): a nil match makes [res[1]]
    panic. *)
Definition decode_bip276 (text : bytes) : res (bytes * Z * Z * bytes) :=
  match bip276_regex text with
  | None => Panic
  | Some m =>
      let version := atoi (bm_ver m) in
      let network := atoi (bm_net m) in
      data <- of_hex (bm_data m) ;;
      let '(_, checksum) := create_bip276 (bm_prefix m) network version data in
      if negb (equals (bm_sum m) checksum) then Err EBip276Checksum
      else Ok (bm_prefix m, version, network, data)
  end.

(** strings.HasPrefix (external), as at script/address/AddressValidation.go:55. *)
Fixpoint has_prefix (p s : bytes) : bool :=
  match p, s with
  | [], _ => true
  | x :: p', y :: s' => byte_eqb x y && has_prefix p' s'
  | _ :: _, [] => false
  end.

(** script/address/AddressValidation.go:54-65 (ValidateAddress): [Ok tt] is
    [(true, nil)], [Err] is [(false, err)]. *)
Definition validate_address (addr : bytes) : res unit :=
  if has_prefix (str "bitcoin-script:") addr
  then match decode_bip276 addr with
       | Ok _ => Ok tt
       | Err e => Err (EBip276Invalid e)
       | Panic => Panic
       end
  else valid_a58 addr.
