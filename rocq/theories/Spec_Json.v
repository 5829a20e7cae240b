(** Vocabulary for C80: the grammar of RFC 8259 and the error object of RFC 7628, section 3.2.2. *)
From Verif Require Import Bytes Types Spec_Wire.

(** RFC 8259, section 2: ws. *)
Definition blank (w : bytes) : Prop := Forall (fun b => In b [" "%char; chr 9; chr 10; chr 13]) w.

(** Section 7: strings. [unescaped]: any character but quotation mark, reverse solidus and the
    control characters U+0000 through U+001F; a character of several bytes has none of these. *)
Definition unescaped (b : byte) : Prop := (32 <= N_of_ascii b)%N /\ b <> chr 34 /\ b <> chr 92.
Inductive hexdigit : byte -> N -> Prop :=
| hd_dec n : (n < 10)%N -> hexdigit (chr (48 + n)) n
| hd_low n : (10 <= n < 16)%N -> hexdigit (chr (87 + n)) n
| hd_up n : (10 <= n < 16)%N -> hexdigit (chr (55 + n)) n.
Inductive hex4 : bytes -> N -> Prop :=
| hex4_of a b c d i j k l : hexdigit a i -> hexdigit b j -> hexdigit c k -> hexdigit d l ->
    hex4 [a; b; c; d] (4096 * i + 256 * j + 16 * k + l)%N.
(** The two-character escapes. *)
Definition shorts : list (byte * byte) :=
  [(chr 34, chr 34); (chr 92, chr 92); ("/"%char, "/"%char); ("b"%char, chr 8); ("f"%char, chr 12);
   ("n"%char, chr 10); ("r"%char, chr 13); ("t"%char, chr 9)].
Definition low_surrogate (n : N) : Prop := (56320 <= n <= 57343)%N.
Definition high_surrogate (n : N) : Prop := (55296 <= n <= 56319)%N.

(** What may stand between quotation marks, *)
Inductive string_body : bytes -> Prop :=
| sb_nil : string_body []
| sb_plain b r : unescaped b -> string_body r -> string_body (b :: r)
| sb_short c d r : In (c, d) shorts -> string_body r -> string_body (chr 92 :: c :: r)
| sb_hex h n r : hex4 h n -> string_body r -> string_body (chr 92 :: "u"%char :: h ++ r).
(** and the characters (in UTF-8) it stands for. *)
Inductive says : bytes -> bytes -> Prop :=
| says_nil : says [] []
| says_plain b r s : unescaped b -> says r s -> says (b :: r) (b :: s)
| says_short c d r s : In (c, d) shorts -> says r s -> says (chr 92 :: c :: r) (d :: s)
| says_hex h n r s : hex4 h n -> ~ high_surrogate n -> ~ low_surrogate n -> says r s ->
    says (chr 92 :: "u"%char :: h ++ r) (utf8_char n ++ s)
| says_pair h n h' m r s : hex4 h n -> high_surrogate n -> hex4 h' m -> low_surrogate m -> says r s ->
    says (chr 92 :: "u"%char :: h ++ chr 92 :: "u"%char :: h' ++ r)
      (utf8_char (65536 + 1024 * (n - 55296) + (m - 56320)) ++ s).
Definition quoted (k : bytes) : bytes := chr 34 :: k ++ [chr 34].

(** Section 6: numbers. *)
Definition digits (d : bytes) : Prop :=
  d <> [] /\ Forall (fun b => (48 <= N_of_ascii b <= 57)%N) d.
Definition number (t : bytes) : Prop :=
  exists i f x, t = i ++ f ++ x /\
    (i = lit "0" \/ (digits i /\ forall r, i <> "0"%char :: r)) /\
    (f = [] \/ exists d, f = "."%char :: d /\ digits d) /\
    (x = [] \/ exists c s d, x = c :: s ++ d /\ In c ["e"%char; "E"%char] /\
                             In s [[]; lit "+"; lit "-"] /\ digits d).

(** Sections 3 to 5: values, arrays with their elements, objects with their members (name and
    value as written). *)
Inductive json_value : bytes -> Prop :=
| jv_null : json_value (lit "null")
| jv_true : json_value (lit "true")
| jv_false : json_value (lit "false")
| jv_number t : number t -> json_value t
| jv_minus t : number t -> json_value ("-"%char :: t)
| jv_string k : string_body k -> json_value (quoted k)
| jv_array t es : elements t es -> json_value ("["%char :: t ++ lit "]")
| jv_object t ms : members t ms -> json_value ("{"%char :: t ++ lit "}")
with elements : bytes -> list bytes -> Prop :=
| el_none w : blank w -> elements w []
| el_some t es : elements1 t es -> elements t es
with elements1 : bytes -> list bytes -> Prop :=
| el_one w t w' : blank w -> json_value t -> blank w' -> elements1 (w ++ t ++ w') [t]
| el_more w t w' r es : blank w -> json_value t -> blank w' -> elements1 r es ->
    elements1 (w ++ t ++ w' ++ ","%char :: r) (t :: es)
with members : bytes -> list (bytes * bytes) -> Prop :=
| me_none w : blank w -> members w []
| me_some t ms : members1 t ms -> members t ms
with members1 : bytes -> list (bytes * bytes) -> Prop :=
| me_one w k w1 w2 t w3 : blank w -> string_body k -> blank w1 -> blank w2 -> json_value t ->
    blank w3 -> members1 (w ++ quoted k ++ w1 ++ ":"%char :: w2 ++ t ++ w3) [(k, t)]
| me_more w k w1 w2 t w3 r ms : blank w -> string_body k -> blank w1 -> blank w2 -> json_value t ->
    blank w3 -> members1 r ms ->
    members1 (w ++ quoted k ++ w1 ++ ":"%char :: w2 ++ t ++ w3 ++ ","%char :: r) ((k, t) :: ms).

Definition is_object (x : bytes) (ms : list (bytes * bytes)) : Prop :=
  exists w t w', blank w /\ blank w' /\ members t ms /\ x = w ++ "{"%char :: t ++ "}"%char :: w'.
Definition is_array (x : bytes) (es : list bytes) : Prop :=
  exists w t w', blank w /\ blank w' /\ elements t es /\ x = w ++ "["%char :: t ++ "]"%char :: w'.

(** Names are compared as characters. Exactly one member of that name, or none. *)
Definition none_named (name : bytes) (ms : list (bytes * bytes)) : Prop :=
  forall k t, In (k, t) ms -> ~ says k name.
Definition only_named (name : bytes) (ms : list (bytes * bytes)) (t : bytes) : Prop :=
  exists a k b, ms = a ++ (k, t) :: b /\ says k name /\ none_named name a /\ none_named name b.

(** Two ways to read a string: as the RFC says, and only if nothing is escaped. *)
Definition any_string (k s : bytes) : Prop := says k s /\ utf8_text s.
Definition plain_string (k s : bytes) : Prop := k = s /\ Forall unescaped s /\ utf8_text s.

(** An optional value: absent, null or a string. *)
Definition null_or (R : bytes -> bytes -> Prop) (t : bytes) (v : option bytes) : Prop :=
  match v with
  | None => t = lit "null"
  | Some s => exists k, t = quoted k /\ R k s
  end.
Definition optional (R : bytes -> bytes -> Prop) (name : bytes) (ms : list (bytes * bytes))
    (v : option bytes) : Prop :=
  (v = None /\ none_named name ms) \/ exists t, only_named name ms t /\ null_or R t v.

(** [x] is the error object [o]: a JSON object with a status and possibly a scope and an
    openid-configuration. *)
Definition error_object (R : bytes -> bytes -> Prop) (x : bytes) (o : oberr) : Prop :=
  exists ms, is_object x ms /\ Forall (fun m => exists s, any_string (fst m) s) ms /\
    (exists k, only_named (lit "status") ms (quoted k) /\ R k (ob_status o)) /\
    optional R (lit "scope") ms (ob_scope o) /\
    optional R (lit "openid-configuration") ms (ob_openid o).
(** Not in RFC 7628: the same as an array of one to three values. *)
Definition error_array (R : bytes -> bytes -> Prop) (x : bytes) (o : oberr) : Prop :=
  exists k es, is_array x (quoted k :: es) /\ R k (ob_status o) /\
    match es with
    | [] => ob_scope o = None /\ ob_openid o = None
    | [a] => null_or R a (ob_scope o) /\ ob_openid o = None
    | [a; b] => null_or R a (ob_scope o) /\ null_or R b (ob_openid o)
    | _ => False
    end.

(** The strings of an error are Rust strings. *)
Definition text_error (o : oberr) : Prop :=
  utf8_text (ob_status o) /\ (forall s, ob_scope o = Some s -> utf8_text s) /\
  (forall s, ob_openid o = Some s -> utf8_text s).
(** None of them needs escaping. *)
Definition plain_error (o : oberr) : Prop :=
  Forall unescaped (ob_status o) /\ (forall s, ob_scope o = Some s -> Forall unescaped s) /\
  (forall s, ob_openid o = Some s -> Forall unescaped s).
