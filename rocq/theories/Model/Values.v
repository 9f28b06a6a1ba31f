(** Model of atelier-core/src/model/values.rs. *)
From Verif.Model Require Export HashMap.

(** [Number], values.rs:23-29. An [f64] is its IEEE bit pattern, 0 <= bits < 2^64. *)
Inductive number :=
| NInteger (n : Z)
| NFloat (bits : Z).

(** IEEE 754 binary64 facts used by the derived [PartialEq]. *)
Definition f64_is_nan (b : Z) : bool :=
  ((Z.land b 0x7FF0000000000000 =? 0x7FF0000000000000) && negb (Z.land b 0x000FFFFFFFFFFFFF =? 0))%Z.
Definition f64_is_inf (b : Z) : bool := (Z.land b 0x7FFFFFFFFFFFFFFF =? 0x7FF0000000000000)%Z.
Definition f64_is_zero (b : Z) : bool := (Z.land b 0x7FFFFFFFFFFFFFFF =? 0)%Z.
Definition f64_eqb (a b : Z) : bool :=
  negb (f64_is_nan a) && negb (f64_is_nan b) && ((a =? b)%Z || (f64_is_zero a && f64_is_zero b)).

(** Derived [PartialEq for Number], values.rs:23. *)
Definition number_eqb (a b : number) : bool :=
  match a, b with
  | NInteger x, NInteger y => (x =? y)%Z
  | NFloat x, NFloat y => f64_eqb x y
  | _, _ => false
  end.

(** [Value], values.rs:41-54; [ValueMap = HashMap<String, Value>], values.rs:57. *)
Inductive value :=
| VArray (vs : list value)
| VObject (vs : list (str * value))
| VNumber (n : number)
| VBoolean (b : bool)
| VString (s : str)
| VNone.

(** Derived [PartialEq for Value], values.rs:40: [Vec] elementwise, [HashMap] order-insensitively. *)
Fixpoint value_eqb (a b : value) : bool :=
  match a, b with
  | VArray l, VArray r =>
      (fix go (l r : list value) : bool :=
         match l, r with
         | [], [] => true
         | x :: l', y :: r' => value_eqb x y && go l' r'
         | _, _ => false
         end) l r
  | VObject l, VObject r =>
      Nat.eqb (length l) (length r)
      && forallb (fun kv => match hm_get str_eqb (fst kv) r with
                            | Some v => value_eqb (snd kv) v
                            | None => false
                            end) l
  | VNumber x, VNumber y => number_eqb x y
  | VBoolean x, VBoolean y => Bool.eqb x y
  | VString x, VString y => str_eqb x y
  | VNone, VNone => true
  | _, _ => false
  end.

(** [is_array], generated by [is_as!], values.rs:228, macros.rs:54-60. *)
Definition is_array (v : value) : bool := match v with VArray _ => true | _ => false end.

Section Display.
  (** [Display for f64] of the standard library, as a parameter. *)
  Variable f64_str : Z -> str.

  (** [Display for Number], values.rs:99-106. *)
  Definition number_display (n : number) : str :=
    match n with NInteger z => int_to_str z | NFloat b => f64_str b end.

  Definition bool_str (b : bool) : str := if b then lit "true" else lit "false".
  Definition dquote : ascii := ascii_of_N 34.

  (** [Display for Value], values.rs:200-225. *)
  Fixpoint value_display (v : value) : str :=
    match v with
    | VArray vs => lit "[ " ++ join (lit ", ") (map value_display vs) ++ lit " ]"
    | VObject vs =>
        lit "{ " ++ join (lit ", ") (map (fun kv => fst kv ++ lit ": " ++ value_display (snd kv)) vs) ++ lit " }"
    | VNumber n => number_display n
    | VBoolean b => bool_str b
    | VString s => [dquote] ++ s ++ [dquote]
    | VNone => lit "None"
    end.
End Display.
