(** Model of the text side of atelier-json/src/{reader,writer}.rs: what [from_reader], [to_writer] and
    [to_writer_pretty] of serde_json 1.0 (default features) do, and [ModelReader::read] and [ModelWriter::write] on
    top of them. serde_json is not part of the repository: this file transcribes its documented behaviour, from
    src/{de,read,ser}.rs of that crate. Floats are read and printed by oracles. *)
From Verif.Model Require Export Json Io.

Definition quote_ch : ascii := ascii_of_N 34.
Definition backslash : ascii := ascii_of_N 92.
Definition newline : ascii := ascii_of_N 10.

(** ** Reading *)

(** [Deserializer::parse_whitespace]. *)
Definition is_ws (c : ascii) : bool :=
  (ch_N c =? 32)%N || (ch_N c =? 9)%N || (ch_N c =? 10)%N || (ch_N c =? 13)%N.
Fixpoint skip_ws (s : str) : str :=
  match s with c :: s' => if is_ws c then skip_ws s' else s | [] => [] end.

(** [decode_hex_escape]: four hexadecimal digits of either case. *)
Definition hex_digit (c : ascii) : option N :=
  let n := ch_N c in
  if is_digit c then Some (n - 48)%N
  else if in_range 97 102 c then Some (n - 87)%N
  else if in_range 65 70 c then Some (n - 55)%N
  else None.
Definition hex4 (a b c d : ascii) : option N :=
  match hex_digit a, hex_digit b, hex_digit c, hex_digit d with
  | Some a, Some b, Some c, Some d => Some (((a * 16 + b) * 16 + c) * 16 + d)%N
  | _, _, _, _ => None
  end.
(** [char::encode_utf8] (std). *)
Definition utf8_char (n : N) : str :=
  if (n <=? 127)%N then [ascii_of_N n]
  else
    let last := ascii_of_N (128 + n mod 64) in
    if (n <=? 2047)%N then [ascii_of_N (192 + n / 64); last]
    else
      let third := ascii_of_N (128 + n / 64 mod 64) in
      if (n <=? 65535)%N then [ascii_of_N (224 + n / 4096); third; last]
      else [ascii_of_N (240 + n / 262144); ascii_of_N (128 + n / 4096 mod 64); third; last].
(** The one-letter escapes of [parse_escape]. *)
Definition short_escape (c : ascii) : option ascii :=
  if Ascii.eqb c quote_ch then Some quote_ch
  else if Ascii.eqb c backslash then Some backslash
  else if Ascii.eqb c "/" then Some "/"%char
  else if Ascii.eqb c "b" then Some (ascii_of_N 8)
  else if Ascii.eqb c "f" then Some (ascii_of_N 12)
  else if Ascii.eqb c "n" then Some newline
  else if Ascii.eqb c "r" then Some (ascii_of_N 13)
  else if Ascii.eqb c "t" then Some (ascii_of_N 9)
  else None.
Definition after {A} (x : str) (r : option (str * A)) : option (str * A) :=
  match r with Some (s, rest) => Some (x ++ s, rest) | None => None end.
(** [parse_str_bytes] with [parse_escape], after the opening quote: the bytes of the string and what follows the
    closing quote. Control characters and surrogates that are not a pair are refused. *)
Fixpoint string_bytes (s : str) : option (str * str) :=
  match s with
  | [] => None
  | c :: s1 =>
      if Ascii.eqb c quote_ch then Some ([], s1)
      else if Ascii.eqb c backslash then
        match s1 with
        | [] => None
        | e :: s2 =>
            if Ascii.eqb e "u" then
              match s2 with
              | h1 :: h2 :: h3 :: h4 :: s3 =>
                  match hex4 h1 h2 h3 h4 with
                  | None => None
                  | Some n =>
                      if (56320 <=? n)%N && (n <=? 57343)%N then None
                      else if (55296 <=? n)%N && (n <=? 56319)%N then
                        match s3 with
                        | b :: u :: g1 :: g2 :: g3 :: g4 :: s4 =>
                            if Ascii.eqb b backslash && Ascii.eqb u "u" then
                              match hex4 g1 g2 g3 g4 with
                              | None => None
                              | Some n2 =>
                                  if (n2 <? 56320)%N || (57343 <? n2)%N then None
                                  else after (utf8_char ((n - 55296) * 1024 + (n2 - 56320) + 65536)) (string_bytes s4)
                              end
                            else None
                        | _ => None
                        end
                      else after (utf8_char n) (string_bytes s3)
                  end
              | _ => None
              end
            else match short_escape e with
                 | Some x => after [x] (string_bytes s2)
                 | None => None
                 end
        end
      else if (ch_N c <? 32)%N then None
      else after [c] (string_bytes s1)
  end.
(** [parse_str] of [IoRead]: the bytes must be UTF-8. *)
Definition read_string (s : str) : option (str * str) :=
  match string_bytes s with
  | Some (t, rest) => match from_utf8 t with Some t => Some (t, rest) | None => None end
  | None => None
  end.

(** The digits at the start of a text. *)
Fixpoint span_digits (s : str) : str * str :=
  match s with
  | c :: s' => if is_digit c then let (d, r) := span_digits s' in (c :: d, r) else ([], s)
  | [] => ([], [])
  end.
Definition digits_value (s : str) : Z := fold_left (fun n c => n * 10 + (Z.of_N (ch_N c) - 48))%Z s 0%Z.
(** The start of [parse_integer]: no digit may follow a zero. *)
Definition read_natural (s : str) : option (str * str) :=
  match s with
  | c :: s1 =>
      if Ascii.eqb c "0" then match s1 with d :: _ => if is_digit d then None else Some ([c], s1) | [] => Some ([c], s1) end
      else if is_digit c then Some (span_digits s)
      else None
  | [] => None
  end.
(** [parse_decimal] and [parse_exponent]: the part of the lexeme if there is one, [None] if it is broken off. *)
Definition read_fraction (s : str) : option (str * str) :=
  match s with
  | c :: s1 => if Ascii.eqb c "." then match span_digits s1 with ([], _) => None | (d, r) => Some (c :: d, r) end else Some ([], s)
  | [] => Some ([], [])
  end.
Definition read_exponent (s : str) : option (str * str) :=
  match s with
  | c :: s1 =>
      if Ascii.eqb c "e" || Ascii.eqb c "E" then
        let (sign, s2) := match s1 with
                          | x :: s2 => if Ascii.eqb x "+" || Ascii.eqb x "-" then ([x], s2) else ([], s1)
                          | [] => ([], [])
                          end in
        match span_digits s2 with ([], _) => None | (d, r) => Some (c :: sign ++ d, r) end
      else Some ([], s)
  | [] => Some ([], [])
  end.

Section Floats.
  (** [f64_from_parts] on the lexeme: the bits of a finite float, or out of range; [ryu]'s text of a float. *)
  Variables (f64_parse : str -> option Z) (f64_text : Z -> str).

  (** [parse_number]: integers that fit stay integers, -0 is a float. *)
  Definition integer_value (negative : bool) (n : Z) : option Z :=
    if negative then if (0 <? n)%Z && (n <=? 0x8000000000000000)%Z then Some (- n)%Z else None
    else if (n <=? 0xFFFFFFFFFFFFFFFF)%Z then Some n else None.
  Definition float_value (lexeme : str) : option json :=
    match f64_parse lexeme with Some b => Some (JFloat b) | None => None end.
  (** [parse_any_number], after the sign. *)
  Definition read_number (negative : bool) (s : str) : option (json * str) :=
    match read_natural s with
    | None => None
    | Some (i, s1) =>
        match read_fraction s1 with
        | None => None
        | Some (f, s2) =>
            match read_exponent s2 with
            | None => None
            | Some (e, s3) =>
                let lexeme := (if negative then ["-"%char] else []) ++ i ++ f ++ e in
                let float := match float_value lexeme with Some j => Some (j, s3) | None => None end in
                match f ++ e, integer_value negative (digits_value i) with
                | [], Some n => Some (JInt n, s3)
                | _, _ => float
                end
            end
        end
    end.

  (** [parse_ident]. *)
  Fixpoint expect (x s : str) : option str :=
    match x, s with
    | [], _ => Some s
    | a :: x', b :: s' => if Ascii.eqb a b then expect x' s' else None
    | _, [] => None
    end.
  Definition read_word (x : string) (j : json) (s : str) : option (json * str) :=
    match expect (lit x) s with Some r => Some (j, r) | None => None end.

  (** [SeqAccess::next_element_seed] until it says there are no more, and [end_seq]. The number is only there to
      make the recursion structural: it exceeds the length of the text. *)
  Fixpoint read_elements (value : str -> option (json * str)) (n : nat) (first : bool) (s : str) : option (list json * str) :=
    match n with
    | 0 => None
    | S n =>
        let one s :=
          match value s with
          | Some (j, r) => match read_elements value n false r with Some (js, r) => Some (j :: js, r) | None => None end
          | None => None
          end in
        match skip_ws s with
        | [] => None
        | c :: s1 =>
            if Ascii.eqb c "]" then Some ([], s1)
            else if first then one (c :: s1)
            else if Ascii.eqb c "," then
              match skip_ws s1 with
              | [] => None
              | c2 :: s2 => if Ascii.eqb c2 "]" then None else one (c2 :: s2)
              end
            else None
        end
    end.
  (** [MapAccess::next_key_seed], [next_value_seed] and [parse_object_colon], and [end_map]. *)
  Fixpoint read_members (value : str -> option (json * str)) (n : nat) (first : bool) (s : str) : option (list (str * json) * str) :=
    match n with
    | 0 => None
    | S n =>
        let one s :=
          match read_string s with
          | Some (k, r) =>
              match skip_ws r with
              | c :: r =>
                  if Ascii.eqb c ":" then
                    match value r with
                    | Some (j, r) => match read_members value n false r with Some (kvs, r) => Some ((k, j) :: kvs, r) | None => None end
                    | None => None
                    end
                  else None
              | [] => None
              end
          | None => None
          end in
        let key s := match s with c :: s' => if Ascii.eqb c quote_ch then one s' else None | [] => None end in
        match skip_ws s with
        | [] => None
        | c :: s1 =>
            if Ascii.eqb c "}" then Some ([], s1)
            else if first then key (c :: s1)
            else if Ascii.eqb c "," then key (skip_ws s1)
            else None
        end
    end.

  (** [Deserializer::deserialize_any] with the visitor of [Value]: [depth] more arrays and objects may be entered
      ([remaining_depth] less one); objects are [BTreeMap]s filled entry by entry. *)
  Fixpoint read_json_value (depth : nat) (s : str) : option (json * str) :=
    match skip_ws s with
    | [] => None
    | c :: s1 =>
        if Ascii.eqb c "n" then read_word "ull" JNull s1
        else if Ascii.eqb c "t" then read_word "rue" (JBool true) s1
        else if Ascii.eqb c "f" then read_word "alse" (JBool false) s1
        else if Ascii.eqb c "-" then read_number true s1
        else if is_digit c then read_number false (c :: s1)
        else if Ascii.eqb c quote_ch then match read_string s1 with Some (t, r) => Some (JString t, r) | None => None end
        else if Ascii.eqb c "[" then
          match depth with
          | 0 => None
          | S depth =>
              match read_elements (read_json_value depth) (S (length s1)) true s1 with
              | Some (js, r) => Some (JArray js, r)
              | None => None
              end
          end
        else if Ascii.eqb c "{" then
          match depth with
          | 0 => None
          | S depth =>
              match read_members (read_json_value depth) (S (length s1)) true s1 with
              | Some (kvs, r) => Some (JObject (bm_from_list kvs), r)
              | None => None
              end
          end
        else None
    end.
  (** [from_reader] and [Deserializer::end]: nothing but white space may follow the value. *)
  Definition json_from_text (s : str) : option json :=
    match read_json_value 127 s with
    | Some (j, r) => match skip_ws r with [] => Some j | _ => None end
    | None => None
    end.

  (** ** Printing *)

  Definition hex_ch (n : N) : ascii := ascii_of_N (if (n <? 10)%N then 48 + n else 87 + n).
  (** [format_escaped_str_contents] with the table [ESCAPE]. *)
  Definition escape_char (c : ascii) : str :=
    let n := ch_N c in
    if (n =? 34)%N then [backslash; quote_ch]
    else if (n =? 92)%N then [backslash; backslash]
    else if (n =? 8)%N then [backslash; "b"%char]
    else if (n =? 9)%N then [backslash; "t"%char]
    else if (n =? 10)%N then [backslash; "n"%char]
    else if (n =? 12)%N then [backslash; "f"%char]
    else if (n =? 13)%N then [backslash; "r"%char]
    else if (n <? 32)%N then backslash :: lit "u00" ++ [hex_ch (n / 16); hex_ch (n mod 16)]
    else [c].
  Definition string_text (s : str) : str := quote_ch :: flat_map escape_char s ++ [quote_ch].
  (** [Value::serialize] with the [CompactFormatter]. *)
  Fixpoint compact (j : json) : str :=
    match j with
    | JNull => lit "null"
    | JBool b => if b then lit "true" else lit "false"
    | JInt n => int_to_str n
    | JFloat b => f64_text b
    | JString s => string_text s
    | JArray l => lit "[" ++ join (lit ",") (map compact l) ++ lit "]"
    | JObject m => lit "{" ++ join (lit ",") (map (fun kv => string_text (fst kv) ++ lit ":" ++ compact (snd kv)) m) ++ lit "}"
    end.
  (** The same with the [PrettyFormatter]: two blanks for every level. *)
  Definition new_line (level : nat) : str := newline :: concat (repeat (lit "  ") level).
  Fixpoint pretty (level : nat) (j : json) : str :=
    match j with
    | JArray (x :: l) =>
        lit "[" ++ join (lit ",") (map (fun x => new_line (S level) ++ pretty (S level) x) (x :: l)) ++ new_line level ++ lit "]"
    | JObject (x :: m) =>
        lit "{"
        ++ join (lit ",") (map (fun kv => new_line (S level) ++ string_text (fst kv) ++ lit ": " ++ pretty (S level) (snd kv)) (x :: m))
        ++ new_line level ++ lit "}"
    | JArray [] => lit "[]"
    | JObject [] => lit "{}"
    | j => compact j
    end.

  (** ** Models *)

  (** [ModelReader::read], reader.rs:55-67: the error of a text that is no JSON is made from a string
      ([ErrorKind::Msg]). *)
  Definition not_json : error := EForeign (lit "ModelReader::read").
  Definition read_json_model `{Hasher} (text : str) : result model :=
    match json_from_text text with Some j => Json.read_model j | None => Err not_json end.
  (** [ModelWriter::write], writer.rs:87-101. Simplification: serde_json writes the text in many pieces. *)
  Definition json_text (pretty_print : bool) (j : json) : str := if pretty_print then pretty 0 j else compact j.
  Definition json_writer (pretty_print : bool) : model_writer := fun m =>
    match model_to_json m with
    | Ok j => WPiece (json_text pretty_print j) (EForeign (lit "json")) WDone
    | Err e => WFail e
    | Panic => WPanic
    end.
  Definition json_model_reader `{Hasher} : model_reader := Reader read_json_model not_json.
End Floats.
