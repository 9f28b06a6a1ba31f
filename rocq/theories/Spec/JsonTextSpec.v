(** JSON text (RFC 8259): which texts say which values. Nothing here mentions how a text is read or printed. *)
From Verif.Model Require Import Json.
From Verif.Spec Require Import IoSpec JsonSpec.
From Coq Require Import Sorted.
Local Open Scope list_scope.

Definition ch (n : N) : ascii := ascii_of_N n.
Definition code (c : ascii) : N := N_of_ascii c.

(** ** White space: space, tab, line feed, carriage return *)
Definition blank (w : str) : Prop := Forall (fun c => In (code c) [32; 9; 10; 13]%N) w.

(** ** Numbers *)
Definition digit (c : ascii) : Prop := (48 <= code c <= 57)%N.
Definition digits (s : str) : Prop := s <> [] /\ Forall digit s.
Definition decimal (s : str) : Z := fold_left (fun n c => n * 10 + (Z.of_N (code c) - 48))%Z s 0%Z.
(** Without superfluous zeros. *)
Definition natural (s : str) : Prop := s = lit "0" \/ digits s /\ hd_error s <> Some "0"%char.
Definition fraction (s : str) : Prop := s = [] \/ exists d, s = lit "." ++ d /\ digits d.
Definition exponent (s : str) : Prop :=
  s = [] \/ exists e sign d, s = e ++ sign ++ d /\ (e = lit "e" \/ e = lit "E") /\ (sign = [] \/ sign = lit "+" \/ sign = lit "-") /\ digits d.

(** ** Strings *)
(** The value of a hexadecimal digit. *)
Inductive hex : ascii -> N -> Prop :=
| hex_digit c : digit c -> hex c (code c - 48)
| hex_lower c : (97 <= code c <= 102)%N -> hex c (code c - 97 + 10)
| hex_upper c : (65 <= code c <= 70)%N -> hex c (code c - 65 + 10).
Inductive hex4 : str -> N -> Prop :=
| hex4_intro a b c d x y z w : hex a x -> hex b y -> hex c z -> hex d w -> hex4 [a; b; c; d] (4096 * x + 256 * y + 16 * z + w).
Definition escape_start : str := [ch 92].
Definition unicode_start : str := [ch 92; ch 117].
(** A piece of the text between the quotes, and the bytes it stands for. *)
Inductive piece_of_string : str -> str -> Prop :=
| ps_plain c : (32 <= code c)%N -> code c <> 34%N -> code c <> 92%N -> piece_of_string [c] [c]
| ps_escape e c :
    In (e, c) [("""", ch 34); ("\", ch 92); ("/", ch 47); ("b", ch 8); ("f", ch 12); ("n", ch 10); ("r", ch 13); ("t", ch 9)]%char ->
    piece_of_string (escape_start ++ [e]) [c]
| ps_unicode h n : hex4 h n -> scalar n -> piece_of_string (unicode_start ++ h) (encode n)
| ps_pair h n h' n' :
    hex4 h n -> (0xD800 <= n <= 0xDBFF)%N -> hex4 h' n' -> (0xDC00 <= n' <= 0xDFFF)%N ->
    piece_of_string (unicode_start ++ h ++ unicode_start ++ h') (encode (0x10000 + (n - 0xD800) * 0x400 + (n' - 0xDC00))).
Inductive pieces_of_string : str -> str -> Prop :=
| pss_nil : pieces_of_string [] []
| pss_cons t s ts ss : piece_of_string t s -> pieces_of_string ts ss -> pieces_of_string (t ++ ts) (s ++ ss).
Definition string_says (t s : str) : Prop :=
  exists body, t = [ch 34] ++ body ++ [ch 34] /\ pieces_of_string body s /\ is_text s.

(** ** Objects: of the entries with the same name the last one counts *)
Definition last_wins {V} (entries m : list (str * V)) : Prop :=
  StronglySorted key_lt m
  /\ forall k v, In (k, v) m <-> exists before after, entries = before ++ (k, v) :: after /\ ~ In k (map fst after).

Section Values.
  (** The float taken for a number, if it is in range. *)
  Variable f64_parse : str -> option Z.

  (** A number is an integer if it has no fraction and no exponent and is in the range of 64 bit integers (-0 is
      not an integer), and a float otherwise. *)
  Inductive number_says : str -> json -> Prop :=
  | ns_natural i : natural i -> (decimal i <= 0xFFFFFFFFFFFFFFFF)%Z -> number_says i (JInt (decimal i))
  | ns_negative i : natural i -> (0 < decimal i <= 0x8000000000000000)%Z -> number_says (lit "-" ++ i) (JInt (- decimal i))
  | ns_float sign i f e b :
      sign = [] \/ sign = lit "-" -> natural i -> fraction f -> exponent e ->
      f <> [] \/ e <> [] \/ (sign = [] /\ 0xFFFFFFFFFFFFFFFF < decimal i)%Z
      \/ sign = lit "-" /\ (decimal i = 0 \/ 0x8000000000000000 < decimal i)%Z ->
      f64_parse (sign ++ i ++ f ++ e) = Some b ->
      number_says (sign ++ i ++ f ++ e) (JFloat b).

  (** [says n t j]: the text [t], which nests arrays and objects at most [n] deep, says [j]. *)
  Inductive says : nat -> str -> json -> Prop :=
  | says_null n : says n (lit "null") JNull
  | says_true n : says n (lit "true") (JBool true)
  | says_false n : says n (lit "false") (JBool false)
  | says_number n t j : number_says t j -> says n t j
  | says_string n t s : string_says t s -> says n t (JString s)
  | says_empty_array n w : blank w -> says (S n) (lit "[" ++ w ++ lit "]") (JArray [])
  | says_array n body l : elements n body l -> says (S n) (lit "[" ++ body ++ lit "]") (JArray l)
  | says_empty_object n w : blank w -> says (S n) (lit "{" ++ w ++ lit "}") (JObject [])
  | says_object n body entries m : members n body entries -> last_wins entries m -> says (S n) (lit "{" ++ body ++ lit "}") (JObject m)
  with elements : nat -> str -> list json -> Prop :=
  | el_one n w t w' j : blank w -> says n t j -> blank w' -> elements n (w ++ t ++ w') [j]
  | el_more n w t w' j rest l : blank w -> says n t j -> blank w' -> elements n rest l -> elements n (w ++ t ++ w' ++ lit "," ++ rest) (j :: l)
  with members : nat -> str -> list (str * json) -> Prop :=
  | mb_one n w k w1 w2 t w' name j :
      blank w -> string_says k name -> blank w1 -> blank w2 -> says n t j -> blank w' ->
      members n (w ++ k ++ w1 ++ lit ":" ++ w2 ++ t ++ w') [(name, j)]
  | mb_more n w k w1 w2 t w' name j rest l :
      blank w -> string_says k name -> blank w1 -> blank w2 -> says n t j -> blank w' -> members n rest l ->
      members n (w ++ k ++ w1 ++ lit ":" ++ w2 ++ t ++ w' ++ lit "," ++ rest) ((name, j) :: l).

  (** A whole document: one value, with white space around it, nested at most 127 deep. *)
  Definition deepest : nat := 127.
  Definition document_says (t : str) (j : json) : Prop :=
    exists w t' w', t = w ++ t' ++ w' /\ blank w /\ blank w' /\ says deepest t' j.

  (** How deep arrays and objects are nested in a value. *)
  Fixpoint depth (j : json) : nat :=
    match j with
    | JArray l => S (list_max (map depth l))
    | JObject m => S (list_max (map (fun kv => depth (snd kv)) m))
    | _ => 0
    end.

  (** ** What can be printed so that it can be read *)
  Variable f64_text : Z -> str.
  (** The float is printed as a number with a fraction or an exponent, which is taken for the same float. *)
  Definition float_reads (b : Z) : Prop := number_says (f64_text b) (JFloat b).
  (** Nested at most [n] deep; integers in range, strings Unicode, objects sorted without repetition, floats as
      above. *)
  Inductive printable : nat -> json -> Prop :=
  | pr_null n : printable n JNull
  | pr_bool n b : printable n (JBool b)
  | pr_int n z : (- 0x8000000000000000 <= z <= 0xFFFFFFFFFFFFFFFF)%Z -> printable n (JInt z)
  | pr_float n b : float_reads b -> printable n (JFloat b)
  | pr_string n s : is_text s -> printable n (JString s)
  | pr_array n l : Forall (printable n) l -> printable (S n) (JArray l)
  | pr_object n m : StronglySorted key_lt m -> Forall (fun kv => is_text (fst kv) /\ printable n (snd kv)) m -> printable (S n) (JObject m).
End Values.

Section Models.
  Variables (f64_parse : str -> option Z) (f64_text : Z -> str).
  Notation float_reads := (float_reads f64_parse f64_text).

  (** A value of a model with Unicode strings, integers that are [i64] and floats as above, nested at most [n] deep. *)
  Inductive value_printable : nat -> value -> Prop :=
  | vp_none n : value_printable n VNone
  | vp_bool n b : value_printable n (VBoolean b)
  | vp_int n z : i64 z -> value_printable n (VNumber (NInteger z))
  | vp_float n b : float_reads b -> value_printable n (VNumber (NFloat b))
  | vp_string n s : is_text s -> value_printable n (VString s)
  | vp_array n l : Forall (value_printable n) l -> value_printable (S n) (VArray l)
  | vp_object n m : Forall (fun kv => is_text (fst kv) /\ value_printable n (snd kv)) m -> value_printable (S n) (VObject m).
  Definition traits_printable (n : nat) (ts : traits) : Prop :=
    Forall (fun t => match snd t with Some v => value_printable n v | None => True end) ts.
  (** A model is printed with its metadata two levels down, the traits of its shapes four, those of the members of
      lists, sets and maps five and those of the members of structures and unions six. *)
  Definition body_printable (b : shape_kind) : Prop :=
    match b with
    | KList m | KSet m => traits_printable (deepest - 5) (ms_traits m)
    | KMap k v => traits_printable (deepest - 5) (ms_traits k) /\ traits_printable (deepest - 5) (ms_traits v)
    | KStructure ms | KUnion ms => Forall (fun e => traits_printable (deepest - 6) (ms_traits (snd e))) ms
    | KService s => is_text (sv_version s)
    | _ => True
    end.
  Definition model_printable (m : model) : Prop :=
    Forall (fun e => is_text (fst e) /\ value_printable (deepest - 2) (snd e)) (m_metadata m)
    /\ Forall (fun e => traits_printable (deepest - 4) (ts_traits (snd e)) /\ body_printable (ts_body (snd e))) (m_shapes m).
End Models.
