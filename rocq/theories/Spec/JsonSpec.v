(** Which values, models and JSON documents the round-trip claims are about, and what a model looks
    like after a trip through JSON. *)
From Verif.Model Require Import Json.
From Verif.Spec Require Export IdentitySpec ModelSpec ReorderSpec.
From Coq Require Import Sorted.

Definition i64 (n : Z) : Prop := (- 0x8000000000000000 <= n <= 0x7FFFFFFFFFFFFFFF)%Z.
Definition finite (b : Z) : Prop := f64_is_nan b = false /\ f64_is_inf b = false.

(** A value as Rust can build it (integers are [i64]) all of whose floats are finite. *)
Inductive finite_value : value -> Prop :=
| fv_array l : Forall finite_value l -> finite_value (VArray l)
| fv_object m : Forall (fun kv => finite_value (snd kv)) m -> finite_value (VObject m)
| fv_int n : i64 n -> finite_value (VNumber (NInteger n))
| fv_float b : finite b -> finite_value (VNumber (NFloat b))
| fv_bool b : finite_value (VBoolean b)
| fv_string s : finite_value (VString s)
| fv_none : finite_value VNone.

(** Some float in the value is NaN or infinite. *)
Inductive has_non_finite : value -> Prop :=
| hn_float b : ~ finite b -> has_non_finite (VNumber (NFloat b))
| hn_array l v : In v l -> has_non_finite v -> has_non_finite (VArray l)
| hn_object m k v : In (k, v) m -> has_non_finite v -> has_non_finite (VObject m).

(** The invariant of [serde_json::Value]: object keys strictly ascending, integers in range, floats
    finite. *)
Definition key_lt {V} (a b : str * V) : Prop := str_cmp (fst a) (fst b) = Lt.
Inductive json_ok : json -> Prop :=
| jo_null : json_ok JNull
| jo_bool b : json_ok (JBool b)
| jo_int n : (- 0x8000000000000000 <= n <= 0xFFFFFFFFFFFFFFFF)%Z -> json_ok (JInt n)
| jo_float b : finite b -> json_ok (JFloat b)
| jo_string s : json_ok (JString s)
| jo_array l : Forall json_ok l -> json_ok (JArray l)
| jo_object m : StronglySorted key_lt m -> Forall (fun kv => json_ok (snd kv)) m -> json_ok (JObject m).

(** No integer above [i64::MAX] anywhere. *)
Inductive json_i64 : json -> Prop :=
| ji_null : json_i64 JNull
| ji_bool b : json_i64 (JBool b)
| ji_int n : i64 n -> json_i64 (JInt n)
| ji_float b : json_i64 (JFloat b)
| ji_string s : json_i64 (JString s)
| ji_array l : Forall json_i64 l -> json_i64 (JArray l)
| ji_object m : Forall (fun kv => json_i64 (snd kv)) m -> json_i64 (JObject m).

(** ** Models that can be written: every name is syntactically valid, values are finite, structure
    members are stored under their own name, list members are called "member", services have a
    version. *)
Definition traits_writable (ts : traits) : Prop :=
  Forall (fun t => valid_id (fst t) /\ match snd t with Some v => finite_value v | None => True end) ts.
Definition member_writable (m : member_shape) : Prop := valid_id (ms_target m) /\ traits_writable (ms_traits m).
Definition opt_valid (o : option shape_id) : Prop := match o with Some id => valid_id id | None => True end.
Definition body_writable (b : shape_kind) : Prop :=
  match b with
  | KSimple _ | KUnresolved => True
  | KList m | KSet m => ms_id m = lit "member" /\ member_writable m
  | KMap k v => member_writable k /\ member_writable v
  | KStructure ms | KUnion ms => Forall (fun e => fst e = ms_id (snd e) /\ is_identifier (fst e) /\ member_writable (snd e)) ms
  | KService s =>
      sv_version s <> [] /\ Forall valid_id (sv_operations s) /\ Forall valid_id (sv_resources s)
      /\ Forall (fun e => valid_id (fst e) /\ is_identifier (snd e)) (sv_renames s)
  | KOperation o => opt_valid (op_input o) /\ opt_valid (op_output o) /\ Forall valid_id (op_errors o)
  | KResource r =>
      Forall (fun e => is_identifier (fst e) /\ valid_id (snd e)) (rs_identifiers r)
      /\ opt_valid (rs_create r) /\ opt_valid (rs_put r) /\ opt_valid (rs_read r) /\ opt_valid (rs_update r)
      /\ opt_valid (rs_delete r) /\ opt_valid (rs_list r) /\ Forall valid_id (rs_operations r)
      /\ Forall valid_id (rs_collection_operations r) /\ Forall valid_id (rs_resources r)
  end.
(** The maps inside a shape are maps: its traits, its members, and the traits of its members. *)
Definition members_of (b : shape_kind) : list member_shape :=
  match b with
  | KList m | KSet m => [m]
  | KMap k v => [k; v]
  | KStructure ms | KUnion ms => map snd ms
  | _ => []
  end.
Definition model_writable `{Hasher} (m : model) : Prop :=
  model_ok m
  /\ Forall (fun e => finite_value (snd e)) (m_metadata m)
  /\ Forall (fun e => valid_id (ts_id (snd e)) /\ traits_writable (ts_traits (snd e)) /\ body_writable (ts_body (snd e))
                      /\ Forall (fun mb => traits_ok (ms_traits mb)) (members_of (ts_body (snd e)))) (m_shapes m).

(** ** What JSON keeps: a trait without value comes back with the value [{}], the key and the value
    of a map come back as members called "member". *)
Definition json_traits (ts : traits) : traits :=
  map (fun t => (fst t, Some match snd t with Some v => v | None => VObject [] end)) ts.
Definition json_member (m : member_shape) : member_shape := MS (ms_id m) (json_traits (ms_traits m)) (ms_target m).
Definition json_map_member (m : member_shape) : member_shape := MS (lit "member") (json_traits (ms_traits m)) (ms_target m).
Definition json_body (b : shape_kind) : shape_kind :=
  match b with
  | KList m => KList (json_member m)
  | KSet m => KSet (json_member m)
  | KMap k v => KMap (json_map_member k) (json_map_member v)
  | KStructure ms => KStructure (map (fun e => (fst e, json_member (snd e))) ms)
  | KUnion ms => KUnion (map (fun e => (fst e, json_member (snd e))) ms)
  | b => b
  end.
Definition json_shape (s : shape) : shape := Shape (ts_id s) (json_traits (ts_traits s)) (json_body (ts_body s)).
Definition json_image (m : model) : model :=
  Model (m_version m) (m_metadata m) (map (fun e => (fst e, json_shape (snd e))) (m_shapes m)).

(** Models without maps and without valueless traits. *)
Definition traits_valued (ts : traits) : Prop := Forall (fun t => snd t <> None) ts.
Definition json_faithful (m : model) : Prop :=
  Forall (fun e => traits_valued (ts_traits (snd e))
                   /\ (forall k v, ts_body (snd e) <> KMap k v)
                   /\ Forall (fun mb => traits_valued (ms_traits mb)) (members_of (ts_body (snd e)))) (m_shapes m).

(** Some float in the model is NaN or infinite: in the metadata, in the value of a trait of a shape, or
    in the value of a trait of a member. *)
Definition traits_non_finite (ts : traits) : Prop := exists id v, In (id, Some v) ts /\ has_non_finite v.
Definition shape_non_finite (s : shape) : Prop :=
  traits_non_finite (ts_traits s) \/ exists mb, In mb (members_of (ts_body s)) /\ traits_non_finite (ms_traits mb).
Definition model_non_finite (m : model) : Prop :=
  (exists k v, In (k, v) (m_metadata m) /\ has_non_finite v)
  \/ (exists id s, In (id, s) (m_shapes m) /\ shape_non_finite s).

(** ** Documents on which the reader can panic *)
(** A shape entry that is a service with an empty version. *)
Definition empty_version_service (j : json) : Prop :=
  exists o, j = JObject o /\ jm_get "type" o = Some (JString (lit "service")) /\ jm_get "version" o = Some (JString []).
(** The entries of the "shapes" object, if there is one. *)
Definition shape_entries (j : json) : jmap :=
  match jget "shapes" j with Some (JObject vs) => vs | _ => [] end.
