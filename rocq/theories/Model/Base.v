(** Basic vocabulary shared by the whole model: Rust strings as byte lists, results with an
    explicit panic, characters, lower-casing, byte-lexicographic order, splitting and joining. *)
From Coq Require Export String Ascii List Bool Arith NArith ZArith Lia.
Export ListNotations.
Open Scope string_scope.
Open Scope list_scope.
(* Many imports shadow [length]/[append]; the model only ever means the list versions. *)
Notation length := List.length.

(** A Rust [String]/[&str] is its list of (UTF-8) bytes. *)
Notation str := (list ascii).
(* String literals are usable wherever a [str] is expected. *)
Coercion list_ascii_of_string : string >-> list.
Definition lit (s : string) : str := list_ascii_of_string s.

(** [ShapeID], atelier-core/src/model/identity.rs:60-66. [NamespaceID] and [Identifier] are newtypes
    around [String] (identity.rs:21-23, 32-36) and are represented by their text. *)
Record shape_id := SID { sid_ns : str; sid_name : str; sid_member : option str }.

(** [ErrorKind], atelier-core/src/error.rs:16-156. Message texts and error chains are not
    modelled; variants that the modelled code never constructs are left out; the three last
    constructors stand for errors of foreign types. *)
Inductive error :=
| EInvalidShapeID (s : str)
| EAbsoluteShapeIDExpected (id : shape_id)
| EShapeIDExpected (id : shape_id)
| EMemberIDExpected (id : shape_id)
| EUnknownShape (s : str)
| EUnknownMember (s : str)
| EAmbiguousShape (s : str)
| EMergeVersionConflict
| EMergeShapeConflict (id : shape_id)
| EMergeTraitConflict (id : shape_id)
| EMergeMetadataConflict (key : str)
| EInvalidVersionNumber (v : option str)
| EInvalidTraitValue (s : str)
| EInvalidSimpleShape (s : str)
| EInvalidSelectorExpression (s : str)
| EInvalidValueVariant (s : str)
| EInvalidRepresentation (s : str)
| EDeserialization (what : str)
| ESerialization (what : str)
| EForeign (what : str).

(** Rust [Result<T, Error>] plus the possibility that the call panics. *)
Inductive result (A : Type) :=
| Ok (a : A)
| Err (e : error)
| Panic.
Arguments Ok {A} a.
Arguments Err {A} e.
Arguments Panic {A}.

Definition rbind {A B} (r : result A) (f : A -> result B) : result B :=
  match r with Ok a => f a | Err e => Err e | Panic => Panic end.
Notation "x <- r ;; k" := (rbind r (fun x => k))
  (at level 61, r at next level, right associativity).

Definition is_ok {A} (r : result A) : bool := match r with Ok _ => true | _ => false end.

(** ** Characters *)

Definition ascii_eqb := Ascii.eqb.
Definition ch_N (c : ascii) : N := N_of_ascii c.

Definition in_range (lo hi : N) (c : ascii) : bool := (lo <=? ch_N c)%N && (ch_N c <=? hi)%N.
Definition is_upper (c : ascii) : bool := in_range 65 90 c.
Definition is_lower (c : ascii) : bool := in_range 97 122 c.
Definition is_digit (c : ascii) : bool := in_range 48 57 c.
Definition is_alpha (c : ascii) : bool := is_upper c || is_lower c.
Definition is_alnum (c : ascii) : bool := is_alpha c || is_digit c.
Definition underscore : ascii := "_".
Definition dot : ascii := ".".
Definition hash_ch : ascii := "#".
Definition dollar : ascii := "$".

(** Rust [str::to_lowercase], restricted to ASCII (see DESIGN.md section 2). *)
Definition lower_ch (c : ascii) : ascii :=
  if is_upper c then ascii_of_N (ch_N c + 32) else c.
Definition lower (s : str) : str := map lower_ch s.

(** ** Strings *)

Fixpoint str_eqb (a b : str) : bool :=
  match a, b with
  | [], [] => true
  | x :: a', y :: b' => Ascii.eqb x y && str_eqb a' b'
  | _, _ => false
  end.

(** Byte-lexicographic comparison, Rust's [Ord for str]. *)
Fixpoint str_cmp (a b : str) : comparison :=
  match a, b with
  | [], [] => Eq
  | [], _ :: _ => Lt
  | _ :: _, [] => Gt
  | x :: a', y :: b' =>
      match N.compare (ch_N x) (ch_N y) with Eq => str_cmp a' b' | c => c end
  end.
Definition str_leb (a b : str) : bool := match str_cmp a b with Gt => false | _ => true end.

(** Rust [str::split(char)]: always at least one piece. *)
Fixpoint split_on (c : ascii) (s : str) : list str :=
  match s with
  | [] => [[]]
  | x :: s' =>
      if Ascii.eqb x c then [] :: split_on c s'
      else match split_on c s' with
           | [] => [[x]]
           | p :: ps => (x :: p) :: ps
           end
  end.

(** Rust [[String]::join(sep)]. *)
Fixpoint join (sep : str) (l : list str) : str :=
  match l with
  | [] => []
  | [x] => x
  | x :: l' => x ++ sep ++ join sep l'
  end.

Definition mem_str (x : str) (l : list str) : bool := existsb (str_eqb x) l.

(** Rust [str::strip_prefix]. *)
Fixpoint strip_prefix (p s : str) : option str :=
  match p, s with
  | [], _ => Some s
  | x :: p', y :: s' => if Ascii.eqb x y then strip_prefix p' s' else None
  | _ :: _, [] => None
  end.

(** Rust [str::replace(char, &str)] with a one-character replacement. *)
Definition replace_ch (a b : ascii) (s : str) : str :=
  map (fun c => if Ascii.eqb c a then b else c) s.

(** ** Options *)
Definition option_eqb {A} (eqb : A -> A -> bool) (x y : option A) : bool :=
  match x, y with
  | None, None => true
  | Some a, Some b => eqb a b
  | _, _ => false
  end.

(** Decimal printing of integers: Rust [Display for i64]. *)
Definition digit_ch (d : Z) : ascii := ascii_of_N (48 + Z.to_N d).
Fixpoint dec_digits (fuel : nat) (n : Z) (acc : str) : str :=
  match fuel with
  | O => acc
  | S f =>
      let acc' := digit_ch (n mod 10) :: acc in
      if (n / 10 =? 0)%Z then acc' else dec_digits f (n / 10) acc'
  end.
(** A number has no more decimal than binary digits. *)
Definition nat_to_str (n : Z) : str := dec_digits (S (Z.to_nat (Z.log2 n))) n [].
Definition int_to_str (n : Z) : str :=
  if (n <? 0)%Z then "-"%char :: nat_to_str (- n) else nat_to_str n.
