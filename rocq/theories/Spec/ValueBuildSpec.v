(** What calls on the builders of values mean. *)
From Verif.Model Require Import ValueBuild.
From Verif.Spec Require Export ShapeApiSpec.

(** The data a call passes on. *)
Inductive datum := DNumber (n : number) | DInteger (n : Z) | DFloat (bits : Z) | DBoolean (b : bool) | DString (s : str) | DValue (v : value).
Definition datum_value (d : datum) : value :=
  match d with
  | DNumber n => VNumber n
  | DInteger n => VNumber (NInteger n)
  | DFloat b => VNumber (NFloat b)
  | DBoolean b => VBoolean b
  | DString s => VString s
  | DValue v => v
  end.
Definition array_do (l : list value) (d : datum) : list value :=
  match d with
  | DNumber n => vab_number l n
  | DInteger n => vab_integer l n
  | DFloat b => vab_float l b
  | DBoolean b => vab_boolean l b
  | DString s => vab_string l s
  | DValue v => vab_push l v
  end.
(** [CRef]: [ObjectBuilder::reference], whose value is a string. *)
Inductive object_call := CPut (k : str) (d : datum) | CRef (k s : str).
Definition object_do (o : list (str * value)) (c : object_call) : list (str * value) :=
  match c with
  | CPut k (DNumber n) => vob_number o k n
  | CPut k (DInteger n) => vob_integer o k n
  | CPut k (DFloat b) => vob_float o k b
  | CPut k (DBoolean b) => vob_boolean o k b
  | CPut k (DString s) => vob_string o k s
  | CPut k (DValue v) => vob_insert o k v
  | CRef k s => vob_reference o k s
  end.
(** The last value given for a key. *)
Definition given (k : str) (cs : list object_call) : option value :=
  latest (flat_map (fun c => match c with
                             | CPut k' d => if str_eqb k' k then [datum_value d] else []
                             | CRef k' s => if str_eqb k' k then [VString s] else []
                             end) cs).
