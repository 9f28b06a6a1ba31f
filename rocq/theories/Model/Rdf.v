(** Model of atelier-rdf/src/writer.rs: a model as an RDF graph, on top of urn.rs and vocabulary.rs. *)
From Verif.Model Require Export Visitor Urn.

(** RDF terms, statements and graphs of the crate rdftk_core (not part of the repository). A literal
    is its lexical form with its data type. A graph is its statements in the order of insertion; the
    theorems only look at which statements are in it. [blank_subject] gives a node that is in no
    earlier statement: here the next number. *)
Inductive datatype := DPlain | DLong | DDouble | DBoolean.
Inductive term :=
| TIri (i : iri)
| TBlank (n : nat)
| TLit (lexical : str) (d : datatype).
Record statement := St { st_subject : term; st_predicate : iri; st_object : term }.
Record graph := Graph { g_statements : list statement; g_next : nat }.
Definition g_insert (g : graph) (s : term) (p : iri) (o : term) : graph :=
  Graph (g_statements g ++ [St s p o]) (g_next g).
Definition g_blank (g : graph) : term * graph := (TBlank (g_next g), Graph (g_statements g) (S (g_next g))).

(** The vocabulary, vocabulary.rs:12-91, and that of RDF itself (crate rdftk_names). *)
Definition smithy (n : str) : iri := iri_from_str (lit "https://awslabs.github.io/smithy/rdf-1.0#" ++ n).
Definition rdf (n : str) : iri := iri_from_str (lit "http://www.w3.org/1999/02/22-rdf-syntax-ns#" ++ n).
Definition a_type : iri := rdf "type".

Section Writer.
  (** [Display for f64], as in Values.v: the lexical form of a double. *)
  Variable f64_str : Z -> str.
  Definition literal (s : str) : term := TLit s DPlain.

  (** [from_value], writer.rs:764-899. *)
  Fixpoint from_value (v : value) (g : graph) (s : term) (p : iri) : graph :=
    match v with
    | VString x => g_insert g s p (literal x)
    | VNumber (NInteger n) => g_insert g s p (TLit (int_to_str n) DLong)
    | VNumber (NFloat b) => g_insert g s p (TLit (f64_str b) DDouble)
    | VBoolean b => g_insert g s p (TLit (bool_str b) DBoolean)
    | VArray vs =>
        let (node, g) := g_blank g in
        let g := g_insert g s p node in
        let g := g_insert g node a_type (TIri (rdf "List")) in
        fold_left (fun g x => from_value x g node (rdf "li")) vs g
    | VObject vs =>
        let (node, g) := g_blank g in
        let g := g_insert g s p node in
        let g := g_insert g node a_type (TIri (rdf "Bag")) in
        fold_left (fun g kv =>
                     let (pair, g) := g_blank g in
                     let g := g_insert g node (rdf "li") pair in
                     let g := g_insert g pair (smithy "key") (literal (fst kv)) in
                     from_value (snd kv) g pair (smithy "value")) vs g
    | VNone => g_insert g s p (TIri (rdf "nil"))
    end.

  (** [from_traits], writer.rs:726-762. *)
  Definition from_traits (ts : traits) (g : graph) (parent : term) : graph :=
    fold_left (fun g t =>
                 let (node, g) := g_blank g in
                 let g := g_insert g parent (smithy "apply") node in
                 let g := g_insert g node (smithy "trait") (TIri (shape_to_iri (fst t))) in
                 match snd t with Some v => from_value v g node (smithy "value") | None => g end) ts g.

  (** [from_member], writer.rs:688-724. *)
  Definition from_member (m : member_shape) (g : graph) (subject : term) : graph :=
    let (node, g) := g_blank g in
    let g := g_insert g subject (smithy "member") node in
    let g := g_insert g node (smithy "name") (literal (ms_id m)) in
    let g := g_insert g node a_type (TIri (shape_to_iri (ms_target m))) in
    from_traits (ms_traits m) g node.

  (** The loops over shape ids and the [if let]s, writer.rs:409-431 etc. *)
  Definition from_ids (p : string) (l : list shape_id) (g : graph) (s : term) : graph :=
    fold_left (fun g id => g_insert g s (smithy p) (TIri (shape_to_iri id))) l g.
  Definition from_id (p : string) (o : option shape_id) (g : graph) (s : term) : graph :=
    match o with Some id => g_insert g s (smithy p) (TIri (shape_to_iri id)) | None => g end.
  (** The bag of identifiers of a resource, writer.rs:507-556: numbered from 1. *)
  Fixpoint from_identifier_list (i : nat) (l : list (str * shape_id)) (g : graph) (bag : term) : graph :=
    match l with
    | [] => g
    | (n, t) :: l' =>
        let (pair, g) := g_blank g in
        let g := g_insert g bag (rdf (lit "_" ++ int_to_str (Z.of_nat i))) pair in
        let g := g_insert g pair (smithy "key") (literal n) in
        let g := g_insert g pair (smithy "value") (TIri (shape_to_iri t)) in
        from_identifier_list (S i) l' g bag
    end.
  Definition from_identifiers (l : list (str * shape_id)) (g : graph) (s : term) : graph :=
    match l with
    | [] => g
    | _ =>
        let (bag, g) := g_blank g in
        let g := g_insert g s (smithy "identifiers") bag in
        let g := g_insert g bag a_type (TIri (rdf "Bag")) in
        from_identifier_list 1 l g bag
    end.

  Definition simple_class (s : simple) : string :=
    match s with
    | SBlob => "Blob" | SBoolean => "Boolean" | SDocument => "Document" | SString => "String" | SByte => "Byte"
    | SShort => "Short" | SInteger => "Integer" | SLong => "Long" | SFloat => "Float" | SDouble => "Double"
    | SBigInteger => "BigInteger" | SBigDecimal => "BigDecimal" | STimestamp => "Timestamp"
    end.

  (** [impl ModelVisitor for RdfModelVisitor], writer.rs:219-669; [member_visitor] is the default, which
      is none. Metadata and unresolved ids are ignored (222-224, 666-668). *)
  Section Visit.
    Variable the_model : term.
    (** [add_shape], writer.rs:675-686, and the [rdf:type] statement that follows every call of it. *)
    Definition start (id : shape_id) (class : string) (g : graph) : term * graph :=
      let subject := TIri (shape_to_iri id) in
      let g := g_insert g the_model (smithy "shape") subject in
      (subject, g_insert g subject a_type (TIri (smithy class))).
    Definition rdf_answer (c : call) (g : graph) : graph :=
      match c with
      | CMetadata _ _ | CUnresolved _ _ | CMember _ _ _ _ => g
      | CSimple id ts b => let (s, g) := start id (simple_class b) g in from_traits ts g s
      | CList id ts m => let (s, g) := start id "List" g in from_traits ts (from_member m g s) s
      | CSet id ts m => let (s, g) := start id "Set" g in from_traits ts (from_member m g s) s
      | CMap id ts k v =>
          let (s, g) := start id "Map" g in
          from_traits ts (from_member v (from_member k g s) s) s
      | CStructure id ts ms =>
          let (s, g) := start id "Structure" g in
          from_traits ts (fold_left (fun g m => from_member m g s) (hm_values ms) g) s
      | CUnion id ts ms =>
          let (s, g) := start id "Union" g in
          from_traits ts (fold_left (fun g m => from_member m g s) (hm_values ms) g) s
      | CService id ts b =>
          let (s, g) := start id "Service" g in
          let g := g_insert g s (smithy "version") (literal (sv_version b)) in
          let g := from_ids "operation" (sv_operations b) g s in
          let g := from_ids "resource" (sv_resources b) g s in
          from_traits ts g s
      | COperation id ts b =>
          let (s, g) := start id "Operation" g in
          let g := from_id "input" (op_input b) g s in
          let g := from_id "output" (op_output b) g s in
          let g := from_ids "error" (op_errors b) g s in
          from_traits ts g s
      | CResource id ts b =>
          let (s, g) := start id "Resource" g in
          let g := from_identifiers (rs_identifiers b) g s in
          let g := from_id "create" (rs_create b) g s in
          let g := from_id "put" (rs_put b) g s in
          let g := from_id "update" (rs_update b) g s in
          let g := from_id "delete" (rs_delete b) g s in
          let g := from_id "read" (rs_read b) g s in
          let g := from_id "list" (rs_list b) g s in
          let g := from_ids "operation" (rs_operations b) g s in
          let g := from_ids "collectionOperation" (rs_collection_operations b) g s in
          let g := from_ids "resource" (rs_resources b) g s in
          from_traits ts g s
      end.
    Definition rdf_visitor : visitor graph error := Visitor (fun c g => (rdf_answer c g, None)) false.
  End Visit.

  (** [model_to_rdf], writer.rs:121-177. The prefix mappings, which are not statements, are left out.
      The subject of the model is a new blank node unless an IRI is given. *)
  Definition model_to_rdf (m : model) (model_iri : option iri) : graph * option error :=
    let g := Graph [] 0 in
    let (subject, g) := match model_iri with None => g_blank g | Some i => (TIri i, g) end in
    let g := g_insert g subject (smithy "smithy_version") (literal (lit "1.0")) in
    let g := g_insert g subject a_type (TIri (smithy "Model")) in
    walk_model m (rdf_visitor subject) g.
End Writer.
