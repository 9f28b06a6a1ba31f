(** What an RDF graph says about a node, what the graph of a model is meant to say about each shape, and
    which models cannot be told apart by their graphs. *)
From Verif.Model Require Import Rdf.
From Verif.Spec Require Export IdentitySpec ModelSpec.

(** ** Descriptions
    A description is an unordered collection of properties; the value of a property is a term or an
    unnamed thing that has a description itself. *)
Inductive obj :=
| OTerm (t : term)
| ONode (ps : list (iri * obj)).
Notation description := (list (iri * obj)).

(** [t] stands for [o] in the graph: a name or literal for itself, a blank node for a thing that has
    exactly the described properties. *)
Inductive stands_for (g : list statement) : term -> obj -> Prop :=
| sf_term t : (forall n, t <> TBlank n) -> stands_for g t (OTerm t)
| sf_node n ps :
    (forall p o, In (p, o) ps -> exists t, In (St (TBlank n) p t) g /\ stands_for g t o) ->
    (forall p t, In (St (TBlank n) p t) g -> exists o, In (p, o) ps /\ stands_for g t o) ->
    stands_for g (TBlank n) (ONode ps).
(** What the graph says about [s] is exactly the description. *)
Definition says (g : list statement) (s : term) (ps : description) : Prop :=
  (forall p o, In (p, o) ps -> exists t, In (St s p t) g /\ stands_for g t o)
  /\ (forall p t, In (St s p t) g -> exists o, In (p, o) ps /\ stands_for g t o).

(** The same graph, up to the names of blank nodes. *)
Definition rename_term (f : nat -> nat) (t : term) : term := match t with TBlank n => TBlank (f n) | _ => t end.
Definition rename_statement (f : nat -> nat) (s : statement) : statement :=
  St (rename_term f (st_subject s)) (st_predicate s) (rename_term f (st_object s)).
Definition same_graph (g h : list statement) : Prop :=
  exists f : nat -> nat, (forall a b, f a = f b -> a = b)
    /\ forall s, In s h <-> In s (map (rename_statement f) g).

Section Descriptions.
  Variable f64_str : Z -> str.

  (** ** The description of a shape, after the RDF mapping of the Atelier book *)
  Definition named (id : shape_id) : obj := OTerm (TIri (shape_to_iri id)).
  Definition text (s : str) : obj := OTerm (TLit s DPlain).
  Definition class (n : string) : obj := OTerm (TIri (smithy n)).
  Definition rdf_class (n : string) : obj := OTerm (TIri (rdf n)).
  Fixpoint value_obj (v : value) : obj :=
    match v with
    | VString s => text s
    | VNumber (NInteger n) => OTerm (TLit (int_to_str n) DLong)
    | VNumber (NFloat b) => OTerm (TLit (f64_str b) DDouble)
    | VBoolean b => OTerm (TLit (bool_str b) DBoolean)
    | VArray vs => ONode ((a_type, rdf_class "List") :: map (fun x => (rdf "li", value_obj x)) vs)
    | VObject vs =>
        ONode ((a_type, rdf_class "Bag")
               :: map (fun kv => (rdf "li", ONode [(smithy "key", text (fst kv)); (smithy "value", value_obj (snd kv))])) vs)
    | VNone => rdf_class "nil"
    end.
  Definition trait_obj (t : shape_id * option value) : obj :=
    ONode ((smithy "trait", named (fst t))
           :: match snd t with Some v => [(smithy "value", value_obj v)] | None => [] end).
  Definition trait_properties (ts : traits) : description := map (fun t => (smithy "apply", trait_obj t)) ts.
  Definition member_property (m : member_shape) : iri * obj :=
    (smithy "member", ONode ((smithy "name", text (ms_id m)) :: (a_type, named (ms_target m)) :: trait_properties (ms_traits m))).
  Definition ids_properties (p : string) (l : list shape_id) : description := map (fun id => (smithy p, named id)) l.
  Definition id_properties (p : string) (o : option shape_id) : description :=
    match o with Some id => [(smithy p, named id)] | None => [] end.
  (** Identifiers are numbered. *)
  Fixpoint numbered (i : nat) (l : list (str * shape_id)) : description :=
    match l with
    | [] => []
    | (n, t) :: l' =>
        (rdf (lit "_" ++ int_to_str (Z.of_nat i)), ONode [(smithy "key", text n); (smithy "value", named t)])
        :: numbered (S i) l'
    end.
  Definition identifiers_properties (l : list (str * shape_id)) : description :=
    match l with [] => [] | _ => [(smithy "identifiers", ONode ((a_type, rdf_class "Bag") :: numbered 1 l))] end.
  Definition kind_class (b : shape_kind) : string :=
    match b with
    | KSimple s => simple_class s
    | KList _ => "List" | KSet _ => "Set" | KMap _ _ => "Map" | KStructure _ => "Structure" | KUnion _ => "Union"
    | KService _ => "Service" | KOperation _ => "Operation" | KResource _ => "Resource" | KUnresolved => ""
    end.
  Definition body_properties (b : shape_kind) : description :=
    match b with
    | KSimple _ | KUnresolved => []
    | KList m | KSet m => [member_property m]
    | KMap k v => [member_property k; member_property v]
    | KStructure ms | KUnion ms => map (fun e => member_property (snd e)) ms
    | KService s =>
        (smithy "version", text (sv_version s))
        :: ids_properties "operation" (sv_operations s) ++ ids_properties "resource" (sv_resources s)
    | KOperation o =>
        id_properties "input" (op_input o) ++ id_properties "output" (op_output o) ++ ids_properties "error" (op_errors o)
    | KResource r =>
        identifiers_properties (rs_identifiers r)
        ++ id_properties "create" (rs_create r) ++ id_properties "put" (rs_put r) ++ id_properties "update" (rs_update r)
        ++ id_properties "delete" (rs_delete r) ++ id_properties "read" (rs_read r) ++ id_properties "list" (rs_list r)
        ++ ids_properties "operation" (rs_operations r)
        ++ ids_properties "collectionOperation" (rs_collection_operations r)
        ++ ids_properties "resource" (rs_resources r)
    end.
  Definition shape_description (s : shape) : description :=
    (a_type, class (kind_class (ts_body s))) :: body_properties (ts_body s) ++ trait_properties (ts_traits s).

  (** ** What the graph keeps of a model *)
  (** The same elements, whatever their order and number. *)
  Definition matched {A} (R : A -> A -> Prop) (l r : list A) : Prop :=
    (forall x, In x l -> exists y, In y r /\ R x y) /\ (forall y, In y r -> exists x, In x l /\ R x y).
  (** Arrays up to order and repetition; floats as they are printed. *)
  Inductive kept_value : value -> value -> Prop :=
  | kv_array l r :
      (forall x, In x l -> exists y, In y r /\ kept_value x y) ->
      (forall y, In y r -> exists x, In x l /\ kept_value x y) -> kept_value (VArray l) (VArray r)
  | kv_object l r :
      (forall k x, In (k, x) l -> exists y, In (k, y) r /\ kept_value x y) ->
      (forall k y, In (k, y) r -> exists x, In (k, x) l /\ kept_value x y) -> kept_value (VObject l) (VObject r)
  | kv_int n : kept_value (VNumber (NInteger n)) (VNumber (NInteger n))
  | kv_float a b : f64_str a = f64_str b -> kept_value (VNumber (NFloat a)) (VNumber (NFloat b))
  | kv_bool b : kept_value (VBoolean b) (VBoolean b)
  | kv_string s : kept_value (VString s) (VString s)
  | kv_none : kept_value VNone VNone.
  Definition kept_traits : traits -> traits -> Prop :=
    matched (fun a b => fst a = fst b /\ opt_rel kept_value (snd a) (snd b)).
  Definition kept_member (a b : member_shape) : Prop :=
    ms_id a = ms_id b /\ ms_target a = ms_target b /\ kept_traits (ms_traits a) (ms_traits b).
  Definition kept_ids : list shape_id -> list shape_id -> Prop := matched eq.
  (** Renames are lost; of the members of a map it is not known which is which, other than by name. *)
  Inductive kept_body : shape_kind -> shape_kind -> Prop :=
  | kb_simple s : kept_body (KSimple s) (KSimple s)
  | kb_list a b : kept_member a b -> kept_body (KList a) (KList b)
  | kb_set a b : kept_member a b -> kept_body (KSet a) (KSet b)
  | kb_map k v k' v' : matched kept_member [k; v] [k'; v'] -> kept_body (KMap k v) (KMap k' v')
  | kb_structure a b : matched kept_member (map snd a) (map snd b) -> kept_body (KStructure a) (KStructure b)
  | kb_union a b : matched kept_member (map snd a) (map snd b) -> kept_body (KUnion a) (KUnion b)
  | kb_service a b :
      sv_version a = sv_version b -> kept_ids (sv_operations a) (sv_operations b) ->
      kept_ids (sv_resources a) (sv_resources b) -> kept_body (KService a) (KService b)
  | kb_operation a b :
      op_input a = op_input b -> op_output a = op_output b -> kept_ids (op_errors a) (op_errors b) ->
      kept_body (KOperation a) (KOperation b)
  | kb_resource a b :
      matched eq (rs_identifiers a) (rs_identifiers b) ->
      rs_create a = rs_create b -> rs_put a = rs_put b -> rs_read a = rs_read b -> rs_update a = rs_update b ->
      rs_delete a = rs_delete b -> rs_list a = rs_list b ->
      kept_ids (rs_operations a) (rs_operations b) ->
      kept_ids (rs_collection_operations a) (rs_collection_operations b) ->
      kept_ids (rs_resources a) (rs_resources b) -> kept_body (KResource a) (KResource b).
  Definition kept_shape (a b : shape) : Prop :=
    ts_id a = ts_id b /\ kept_body (ts_body a) (ts_body b) /\ kept_traits (ts_traits a) (ts_traits b).
  Definition resolved (m : model) : list shape :=
    filter (fun s => negb (is_unresolved (ts_body s))) (shapes m).
  (** Metadata and unresolved shapes are lost. *)
  Definition kept_model (a b : model) : Prop := matched kept_shape (resolved a) (resolved b).
End Descriptions.

(** Every shape id that the graph mentions is syntactically valid. *)
Definition traits_named (ts : traits) : Prop := forall t, In t ts -> valid_id (fst t).
Definition ids_valid (l : list shape_id) : Prop := forall id, In id l -> valid_id id.
Definition id_valid (o : option shape_id) : Prop := forall id, o = Some id -> valid_id id.
Definition member_valid (m : member_shape) : Prop := valid_id (ms_target m) /\ traits_named (ms_traits m).
Definition body_valid (b : shape_kind) : Prop :=
  match b with
  | KSimple _ | KUnresolved => True
  | KList m | KSet m => member_valid m
  | KMap k v => member_valid k /\ member_valid v
  | KStructure ms | KUnion ms => forall e, In e ms -> member_valid (snd e)
  | KService s => ids_valid (sv_operations s) /\ ids_valid (sv_resources s)
  | KOperation o => id_valid (op_input o) /\ id_valid (op_output o) /\ ids_valid (op_errors o)
  | KResource r =>
      (forall e, In e (rs_identifiers r) -> valid_id (snd e))
      /\ id_valid (rs_create r) /\ id_valid (rs_put r) /\ id_valid (rs_read r) /\ id_valid (rs_update r)
      /\ id_valid (rs_delete r) /\ id_valid (rs_list r) /\ ids_valid (rs_operations r)
      /\ ids_valid (rs_collection_operations r) /\ ids_valid (rs_resources r)
  end.
Definition shape_valid (s : shape) : Prop :=
  valid_id (ts_id s) /\ traits_named (ts_traits s) /\ body_valid (ts_body s).
Definition model_valid (m : model) : Prop := forall s, In s (resolved m) -> shape_valid s.
(** No two shapes have the same id, letter by letter. *)
Definition ids_distinct (m : model) : Prop := NoDup (map ts_id (shapes m)).
