(** Model of atelier-core/src/builder/values.rs. An [ArrayBuilder], 12-14, is its list of values, an
    [ObjectBuilder], 20-22, its map. *)
From Verif.Model Require Export Values HashMap.

(** [ArrayBuilder::push], 58-61; [number] .. [string], 64-91. *)
Definition vab_push (l : list value) (v : value) : list value := l ++ [v].
Definition vab_number (l : list value) (n : number) : list value := vab_push l (VNumber n).
Definition vab_integer (l : list value) (n : Z) : list value := vab_push l (VNumber (NInteger n)).
Definition vab_float (l : list value) (n : Z) : list value := vab_push l (VNumber (NFloat n)).
Definition vab_boolean (l : list value) (b : bool) : list value := vab_push l (VBoolean b).
Definition vab_string (l : list value) (s : str) : list value := vab_push l (VString s).
(** [From<ArrayBuilder> for Value], 50-54. *)
Definition vab_value (l : list value) : value := VArray l.

(** [ObjectBuilder::insert], 118-121; [number] .. [reference], 124-157. *)
Definition vob_insert (o : list (str * value)) (k : str) (v : value) : list (str * value) := hm_insert str_eqb k v o.
Definition vob_number o k (n : number) := vob_insert o k (VNumber n).
Definition vob_integer o k (n : Z) := vob_insert o k (VNumber (NInteger n)).
Definition vob_float o k (n : Z) := vob_insert o k (VNumber (NFloat n)).
Definition vob_boolean o k (b : bool) := vob_insert o k (VBoolean b).
Definition vob_string o k (s : str) := vob_insert o k (VString s).
Definition vob_reference o k (s : str) := vob_insert o k (VString s).
(** [From<ObjectBuilder> for Value], 110-114. *)
Definition vob_value (o : list (str * value)) : value := VObject o.
