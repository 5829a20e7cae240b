(** serde and serde_json as far as OAUTHBEARER uses them: `serde_json::to_writer` and
    `serde_json::from_slice` (oauthbearer/server.rs:67, oauthbearer/client.rs:79) for the
    type OAuthBearerError with its derived implementations (oauthbearer/properties.rs:28-71).
    The crates are not part of /repo: this is what serde 1 and serde_json 1 document and do,
    with all errors alike. *)
From Verif Require Import Bytes Utf8 Types.

Definition j_quote : byte := chr 34.
Definition j_back : byte := chr 92.

(** * Writing *)

(** CharEscape: the last characters of \u00xx are lower case. *)
Definition j_hex (n : N) : byte := if N.ltb n 10 then chr (48 + n) else chr (87 + n).
Definition j_escape (b : byte) : bytes :=
  let n := N_of_ascii b in
  if beq b j_quote then [j_back; j_quote]
  else if beq b j_back then [j_back; j_back]
  else if N.eqb n 8 then [j_back; "b"%char]
  else if N.eqb n 9 then [j_back; "t"%char]
  else if N.eqb n 10 then [j_back; "n"%char]
  else if N.eqb n 12 then [j_back; "f"%char]
  else if N.eqb n 13 then [j_back; "r"%char]
  else if N.ltb n 32 then [j_back] ++ lit "u00" ++ [j_hex (n / 16); j_hex (n mod 16)]
  else [b].
Definition j_string (s : bytes) : bytes := [j_quote] ++ flat_map j_escape s ++ [j_quote].
Definition j_member (name : bytes) (v : bytes) : bytes := j_string name ++ lit ":" ++ j_string v.
(** [skip_serializing_if = "Option::is_none"]. *)
Definition j_optional (name : bytes) (v : option bytes) : bytes :=
  match v with Some x => lit "," ++ j_member name x | None => [] end.

(** Serialize for OAuthBearerError, compact. *)
Definition json_to (o : oberr) : bytes :=
  lit "{" ++ j_member (lit "status") (ob_status o) ++ j_optional (lit "scope") (ob_scope o)
  ++ j_optional (lit "openid-configuration") (ob_openid o) ++ lit "}".

(** * Reading: each function takes the input left and returns what is left after it *)

Definition j_ws (b : byte) : bool :=
  existsb (beq b) [" "%char; chr 9; chr 10; chr 13].
(** parse_whitespace. *)
Fixpoint skip_ws (l : bytes) : bytes :=
  match l with
  | b :: r => if j_ws b then skip_ws r else l
  | [] => []
  end.

(** Next byte after white space must be [c]. *)
Definition token (c : byte) (l : bytes) : option bytes :=
  match skip_ws l with
  | b :: r => if beq b c then Some r else None
  | [] => None
  end.

Definition j_hexval (b : byte) : option N :=
  let n := N_of_ascii b in
  if in_range 48 57 b then Some (n - 48)%N
  else if in_range 97 102 b then Some (n - 87)%N
  else if in_range 65 70 b then Some (n - 55)%N
  else None.
(** decode_hex_escape. *)
Definition j_hex4 (a b c d : byte) : option N :=
  match j_hexval a, j_hexval b, j_hexval c, j_hexval d with
  | Some a, Some b, Some c, Some d => Some (((a * 16 + b) * 16 + c) * 16 + d)%N
  | _, _, _, _ => None
  end.
(** parse_escape: the escapes of one character. *)
Definition j_short (c : byte) : option byte :=
  if beq c j_quote then Some j_quote
  else if beq c j_back then Some j_back
  else if beq c "/"%char then Some "/"%char
  else if beq c "b"%char then Some (chr 8)
  else if beq c "f"%char then Some (chr 12)
  else if beq c "n"%char then Some (chr 10)
  else if beq c "r"%char then Some (chr 13)
  else if beq c "t"%char then Some (chr 9)
  else None.

(** SliceRead::ignore_str, and the first half of SliceRead::parse_str: up to the closing
    quote; what stands between the quotes, and the rest. *)
Fixpoint raw_str (l : bytes) : option (bytes * bytes) :=
  match l with
  | [] => None
  | b :: r =>
      if beq b j_quote then Some ([], r)
      else if beq b j_back then
        match r with
        | [] => None
        | c :: r1 =>
            match j_short c with
            | Some _ =>
                match raw_str r1 with
                | Some (x, rest) => Some (b :: c :: x, rest)
                | None => None
                end
            | None =>
                if beq c "u"%char then
                  match r1 with
                  | h1 :: h2 :: h3 :: h4 :: r2 =>
                      match j_hex4 h1 h2 h3 h4 with
                      | Some _ =>
                          match raw_str r2 with
                          | Some (x, rest) => Some (b :: c :: h1 :: h2 :: h3 :: h4 :: x, rest)
                          | None => None
                          end
                      | None => None
                      end
                  | _ => None
                  end
                else None
            end
        end
      else if N.ltb (N_of_ascii b) 32 then None
      else match raw_str r with
           | Some (x, rest) => Some (b :: x, rest)
           | None => None
           end
  end.

(** push_wtf8_codepoint. *)
Definition j_push (n : N) : bytes :=
  (if n <? 128 then [chr n]
   else if n <? 2048 then [chr (192 + n / 64); chr (128 + n mod 64)]
   else if n <? 65536 then [chr (224 + n / 4096); chr (128 + n / 64 mod 64); chr (128 + n mod 64)]
   else [chr (240 + n / 262144); chr (128 + n / 4096 mod 64); chr (128 + n / 64 mod 64);
         chr (128 + n mod 64)])%N.

(** parse_escape and parse_unicode_escape with validation, on what raw_str accepted. *)
Fixpoint j_unescape (l : bytes) : option bytes :=
  match l with
  | [] => Some []
  | b :: r =>
      if beq b j_back then
        match r with
        | [] => None
        | c :: r1 =>
            match j_short c with
            | Some d => option_map (cons d) (j_unescape r1)
            | None =>
                if negb (beq c "u"%char) then None else
                match r1 with
                | h1 :: h2 :: h3 :: h4 :: r2 =>
                    match j_hex4 h1 h2 h3 h4 with
                    | None => None
                    | Some n =>
                        if N.leb 56320 n && N.leb n 57343 then None
                        else if N.ltb n 55296 || N.ltb 56319 n
                        then option_map (app (j_push n)) (j_unescape r2)
                        else match r2 with
                             | e :: u :: g1 :: g2 :: g3 :: g4 :: r3 =>
                                 if beq e j_back && beq u "u"%char then
                                   match j_hex4 g1 g2 g3 g4 with
                                   | Some m =>
                                       if N.leb 56320 m && N.leb m 57343
                                       then option_map
                                              (app (j_push (65536 + (n - 55296) * 1024 + (m - 56320))))
                                              (j_unescape r3)
                                       else None
                                   | None => None
                                   end
                                 else None
                             | _ => None
                             end
                    end
                | _ => None
                end
            end
        end
      else option_map (cons b) (j_unescape r)
  end.

(** SliceRead::parse_str, after the opening quote: the text between the quotes, the string it
    stands for, and the rest. *)
Definition p_str (l : bytes) : option (bytes * bytes * bytes) :=
  match raw_str l with
  | Some (raw, rest) =>
      match j_unescape raw with
      | Some s => if utf8_valid s then Some (raw, s, rest) else None
      | None => None
      end
  | None => None
  end.

Definition digit (b : byte) : bool := in_range 48 57 b.
Fixpoint skip_digits (l : bytes) : bytes :=
  match l with
  | b :: r => if digit b then skip_digits r else l
  | [] => []
  end.
(** One or more digits. *)
Definition digits1 (l : bytes) : option bytes :=
  match l with
  | b :: r => if digit b then Some (skip_digits r) else None
  | [] => None
  end.
(** ignore_integer: no leading zeros. *)
Definition skip_int (l : bytes) : option bytes :=
  match l with
  | [] => None
  | b :: r =>
      if beq b "0"%char then
        match r with
        | c :: _ => if digit c then None else Some r
        | [] => Some r
        end
      else digits1 l
  end.
(** ignore_decimal. *)
Definition skip_frac (l : bytes) : option bytes :=
  match l with
  | b :: r => if beq b "."%char then digits1 r else Some l
  | [] => Some l
  end.
(** ignore_exponent. *)
Definition skip_exp (l : bytes) : option bytes :=
  match l with
  | b :: r =>
      if beq b "e"%char || beq b "E"%char then
        match r with
        | s :: r' => if beq s "+"%char || beq s "-"%char then digits1 r' else digits1 r
        | [] => None
        end
      else Some l
  | [] => Some l
  end.
Definition skip_num (l : bytes) : option bytes :=
  match skip_int l with
  | Some r => match skip_frac r with Some r => skip_exp r | None => None end
  | None => None
  end.

(** Deserializer::ignore_value, for members of other names: recursion instead of a stack
    (simplification). *)
Fixpoint skip_value (fuel : nat) (l : bytes) : option bytes :=
  match fuel with
  | O => None
  | S f =>
      match skip_ws l with
      | [] => None
      | b :: r =>
          if beq b "n"%char then strip_prefix (lit "ull") r
          else if beq b "t"%char then strip_prefix (lit "rue") r
          else if beq b "f"%char then strip_prefix (lit "alse") r
          else if beq b "-"%char then skip_num r
          else if digit b then skip_num (b :: r)
          else if beq b j_quote then option_map snd (raw_str r)
          else if beq b "["%char then
            match token "]"%char r with
            | Some r' => Some r'
            | None => skip_elements f r
            end
          else if beq b "{"%char then
            match token "}"%char r with
            | Some r' => Some r'
            | None => skip_members f r
            end
          else None
      end
  end
with skip_elements (fuel : nat) (l : bytes) : option bytes :=
  match fuel with
  | O => None
  | S f =>
      match skip_value f l with
      | None => None
      | Some r =>
          match token ","%char r with
          | Some r' => skip_elements f r'
          | None => token "]"%char r
          end
      end
  end
with skip_members (fuel : nat) (l : bytes) : option bytes :=
  match fuel with
  | O => None
  | S f =>
      match token j_quote l with
      | None => None
      | Some r =>
          match raw_str r with
          | None => None
          | Some (_, r1) =>
              match token ":"%char r1 with
              | None => None
              | Some r2 =>
                  match skip_value f r2 with
                  | None => None
                  | Some r3 =>
                      match token ","%char r3 with
                      | Some r4 => skip_members f r4
                      | None => token "}"%char r3
                      end
                  end
              end
          end
      end
  end.
(** Enough for every input. *)
Definition skip_any (l : bytes) : option bytes := skip_value (S (S (2 * length l))) l.

(** Deserialize for [&str]: only a string that can be borrowed from the input, that is one
    without escapes (visit_borrowed_str; visit_str is an error). *)
Definition p_borrowed (l : bytes) : option (bytes * bytes) :=
  match token j_quote l with
  | None => None
  | Some r =>
      match p_str r with
      | Some (raw, s, rest) => if contains j_back raw then None else Some (s, rest)
      | None => None
      end
  end.
(** Deserialize for [Option<&str>]. *)
Definition p_opt (l : bytes) : option (option bytes * bytes) :=
  match token "n"%char l with
  | Some r => option_map (fun rest => (None, rest)) (strip_prefix (lit "ull") r)
  | None => option_map (fun x => (Some (fst x), snd x)) (p_borrowed l)
  end.

(** The variables of the derived visit_map. *)
Record fields := mk_fields {
  f_status : option bytes; f_scope : option (option bytes); f_openid : option (option bytes) }.
(** One member; a second one of the same name is an error, other names are ignored. *)
Definition p_field (k : bytes) (fs : fields) (l : bytes) : option (fields * bytes) :=
  if bytes_eqb k (lit "status") then
    match f_status fs with
    | Some _ => None
    | None => option_map (fun x => (mk_fields (Some (fst x)) (f_scope fs) (f_openid fs), snd x))
                (p_borrowed l)
    end
  else if bytes_eqb k (lit "scope") then
    match f_scope fs with
    | Some _ => None
    | None => option_map (fun x => (mk_fields (f_status fs) (Some (fst x)) (f_openid fs), snd x))
                (p_opt l)
    end
  else if bytes_eqb k (lit "openid-configuration") then
    match f_openid fs with
    | Some _ => None
    | None => option_map (fun x => (mk_fields (f_status fs) (f_scope fs) (Some (fst x)), snd x))
                (p_opt l)
    end
  else option_map (fun rest => (fs, rest)) (skip_any l).

(** visit_map over MapAccess, after the brace or a comma. *)
Fixpoint p_fields (fuel : nat) (fs : fields) (l : bytes) : option (fields * bytes) :=
  match fuel with
  | O => None
  | S f =>
      match token j_quote l with
      | None => None
      | Some r =>
          match p_str r with
          | None => None
          | Some (_, k, r1) =>
              match token ":"%char r1 with
              | None => None
              | Some r2 =>
                  match p_field k fs r2 with
                  | None => None
                  | Some (fs', r3) =>
                      match token ","%char r3 with
                      | Some r4 => p_fields f fs' r4
                      | None => option_map (fun rest => (fs', rest)) (token "}"%char r3)
                      end
                  end
              end
          end
      end
  end.
(** A missing [Option] is None, a missing status an error. *)
Definition j_flat (o : option (option bytes)) : option bytes :=
  match o with Some x => x | None => None end.
Definition p_object (l : bytes) : option (oberr * bytes) :=
  match token "}"%char l with
  | Some _ => None
  | None =>
      match p_fields (S (length l)) (mk_fields None None None) l with
      | Some (mk_fields (Some st) sc oi, rest) =>
          Some (mk_oberr st (j_flat sc) (j_flat oi), rest)
      | _ => None
      end
  end.
(** visit_seq over SeqAccess: serde also reads a struct from an array. *)
Definition p_array (l : bytes) : option (oberr * bytes) :=
  match p_borrowed l with
  | None => None
  | Some (st, r1) =>
      match token ","%char r1 with
      | None => option_map (fun rest => (mk_oberr st None None, rest)) (token "]"%char r1)
      | Some r2 =>
          match p_opt r2 with
          | None => None
          | Some (sc, r3) =>
              match token ","%char r3 with
              | None => option_map (fun rest => (mk_oberr st sc None, rest)) (token "]"%char r3)
              | Some r4 =>
                  match p_opt r4 with
                  | None => None
                  | Some (oi, r5) =>
                      option_map (fun rest => (mk_oberr st sc oi, rest)) (token "]"%char r5)
                  end
              end
          end
      end
  end.

(** from_slice: one value, then nothing but white space. *)
Definition json_from (x : bytes) : option oberr :=
  let r :=
    match token "{"%char x with
    | Some l => p_object l
    | None => match token "["%char x with
              | Some l => p_array l
              | None => None
              end
    end in
  match r with
  | Some (o, rest) => match skip_ws rest with [] => Some o | _ :: _ => None end
  | None => None
  end.
