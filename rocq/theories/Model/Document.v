(** Model of atelier-describe/src/document/writer.rs: [describe_model], which makes the document.  Rendering it
    ([write_document], crate somedoc) is not modelled. *)
From Verif.Model Require Export SemModel Lines Json.

(** ** The parts of a [somedoc::model::Document] the writer uses *)
(** Text within a paragraph: [Span::plain_str], [code_str], [bold_str], a span of spans,
    [HyperLink::internal_with_caption] and [external_with_caption]. *)
Inductive inline :=
| Plain (s : str)
| Code (s : str)
| Bold (s : str)
| Span (l : list inline)
| Internal (label caption : str)
| External (url caption : str).
(** A cell of a table: [Cell::plain_str], [code_str], [skip]. *)
Inductive cell := CPlain (s : str) | CCode (s : str) | CSkip.
(** [Heading::section], [sub_section], [sub_sub_section]. *)
Inductive level := Section1 | Section2 | Section3.
Inductive block :=
| Heading (l : level) (text : str) (label : option str)
| Paragraph (l : list inline)
| Table (columns : list str) (rows : list (list cell))
| Quote (l : list block)
| Bullets (items : list (list inline)).
(** [Document]: title and blocks. *)
Record document := Document { d_title : str; d_blocks : list block }.

(** Rust's stable [sort] and [sort_by_key]. *)
Fixpoint insert_by {A} (leb : A -> A -> bool) (x : A) (l : list A) : list A :=
  match l with
  | [] => [x]
  | y :: l' => if leb x y then x :: y :: l' else y :: insert_by leb x l'
  end.
Definition sort_by {A} (leb : A -> A -> bool) (l : list A) : list A := fold_right (insert_by leb) [] l.
Definition sid_leb (a b : shape_id) : bool := match sid_cmp a b with Gt => false | _ => true end.

Section Describe.
  Context `{Hasher}.
  (** [Display for f64]; [Label::safe_from(text, Some(prefix))] of somedoc. *)
  Variables (f64_str : Z -> str) (safe_label : str -> str -> str).

  (** One row of a table of traits, writer.rs:194-228: id, path and value. *)
  Definition trait_row : Type := str * option str * option str.

  (** [trait_value], writer.rs:194-228. *)
  Fixpoint trait_value (id : str) (prefix : option str) (v : value) : list trait_row :=
    match v with
    | VBoolean b => [(id, prefix, Some (bool_str b))]
    | VNumber n => [(id, prefix, Some (number_display f64_str n))]
    | VString s => [(id, prefix, Some s)]
    | VArray [] => [(id, None, None)]
    | VArray vs =>
        (fix go (i : nat) (vs : list value) : list trait_row :=
           match vs with
           | [] => []
           | v :: vs' => trait_value id (Some (lit "[" ++ nat_to_str (Z.of_nat i) ++ lit "]")) v ++ go (S i) vs'
           end) 0 vs
    | VObject [] => [(id, None, None)]
    | VObject vs =>
        let rows := map (fun e => (fst e, trait_value id (Some ("."%char :: fst e)) (snd e))) vs in
        flat_map (fun k => match hm_get str_eqb k rows with Some r => r | None => [] end) (sort_strings (map fst vs))
    | VNone => [(id, None, None)]
    end.

  (** The ids of writer.rs:231-234, 280 and 285. *)
  Definition documentation_id : shape_id := SID "smithy.api" "documentation" None.
  Definition external_documentation_id : shape_id := SID "smithy.api" "externalDocumentation" None.

  (** One round of the loop of [describe_traits], writer.rs:238-252. *)
  Definition trait_rows (id : shape_id) (v : option value) : list trait_row :=
    if negb (sid_eqb id documentation_id) && negb (sid_eqb id external_documentation_id) then
      let name := if ns_eqb (sid_ns id) (lit "smithy.api") then sid_name id else sid_display id in
      match v with Some v => trait_value name None v | None => [(name, None, None)] end
    else [].
  Fixpoint all_trait_rows (ids : list shape_id) (ts : traits) : result (list trait_row) :=
    match ids with
    | [] => Ok []
    | id :: ids' =>
        match hm_get sid_key_eqb id ts with
        | None => Panic
        | Some v => rows <- all_trait_rows ids' ts ;; Ok (trait_rows id v ++ rows)
        end
    end.

  (** A row of the table, writer.rs:261-273. *)
  Definition code_cell (o : option str) : cell := match o with Some s => CCode s | None => CSkip end.
  Definition table_row (r : trait_row) : list cell :=
    let '(id, path, v) := r in [CPlain id; code_cell path; code_cell v].

  (** [describe_traits], writer.rs:230-277. *)
  Definition describe_traits (ts : traits) : result (list block) :=
    rows <- all_trait_rows (sort_by sid_leb (map fst ts)) ts ;;
    Ok match rows with
       | [] => []
       | _ => [Table [lit "Trait ID"; lit "Path"; lit "Value"] (map table_row rows)]
       end.

  (** [describe_documentation], writer.rs:279-303. *)
  Definition describe_documentation (ts : traits) : result (list block) :=
    doc <- match hm_get sid_key_eqb documentation_id ts with
           | Some (Some (VString s)) => Ok [Paragraph [Plain s]]
           | Some (Some _) => Panic
           | _ => Ok []
           end ;;
    let links :=
      match hm_get sid_key_eqb external_documentation_id ts with
      | Some (Some (VObject ((k, v) :: vs))) =>
          [Paragraph (Plain (lit "See also: ")
             :: map (fun e => External (value_display f64_str (snd e)) (fst e)) ((k, v) :: vs))]
      | _ => []
      end in
    traits <- describe_traits ts ;;
    Ok (doc ++ links ++ traits).

  (** [shape_id_to_label], writer.rs:305-314. *)
  Definition shape_id_to_label (id : shape_id) : str :=
    match sid_member id with
    | Some mb => safe_label (sid_name id ++ lit "_" ++ mb) (lit "member")
    | None => safe_label (sid_name id) (lit "shape")
    end.

  (** [shape_link], writer.rs:316-332. *)
  Definition shape_link (source target : shape_id) : inline :=
    if ns_eqb (sid_ns source) (sid_ns target) then
      Internal (shape_id_to_label target)
        match sid_member source with
        | Some mb => sid_name target ++ lit "$" ++ mb
        | None => sid_name target
        end
    else Code (sid_display target).

  (** [describe_list_or_set], writer.rs:334-340. *)
  Definition describe_list_or_set (id : shape_id) (mb : member_shape) : result (list block) :=
    d <- describe_documentation (ms_traits mb) ;;
    Ok (Paragraph [Bold (lit "Member type: "); shape_link id (ms_target mb)] :: d).

  (** [describe_map], writer.rs:342-353. *)
  Definition describe_map (id : shape_id) (k v : member_shape) : result (list block) :=
    dk <- describe_documentation (ms_traits k) ;;
    dv <- describe_documentation (ms_traits v) ;;
    Ok ([Paragraph [Bold (lit "Key type: "); shape_link id (ms_target k)]] ++ dk
        ++ [Paragraph [Bold (lit ", value type: "); shape_link id (ms_target v)]] ++ dv).

  (** The loop of [describe_structure_or_union], writer.rs:359-366: what goes to the document at once and
      what goes to the quote. *)
  Fixpoint describe_members (id : shape_id) (l : list member_shape) : result (list block * list block) :=
    match l with
    | [] => Ok ([], [])
    | mb :: l' =>
        d <- describe_documentation (ms_traits mb) ;;
        rest <- describe_members id l' ;;
        Ok (d ++ fst rest, Paragraph [Code (ms_id mb); Plain (lit ": "); shape_link id (ms_target mb)] :: snd rest)
    end.
  (** [describe_structure_or_union], writer.rs:355-369. *)
  Definition describe_structure_or_union (id : shape_id) (ms : members) : result (list block) :=
    match ms with
    | [] => Ok []
    | _ =>
        parts <- describe_members id (hm_values ms) ;;
        Ok ([Heading Section3 (lit "Members") None] ++ fst parts ++ [Quote (snd parts)])
    end.

  (** The repeated pattern of a headed, quoted list, e.g. writer.rs:377-386. *)
  Definition quoted_list (title : str) (items : list (list inline)) : list block :=
    match items with [] => [] | _ => [Heading Section3 title None; Quote [Bullets items]] end.
  Definition links (id : shape_id) (l : list shape_id) : list (list inline) := map (fun t => [shape_link id t]) l.

  (** [describe_service], writer.rs:371-411. *)
  Definition describe_service (id : shape_id) (s : service) : list block :=
    [Paragraph [Bold (lit "Service version"); Plain (lit ": "); Plain (sv_version s)]]
    ++ quoted_list (lit "Operations") (links id (sv_operations s))
    ++ quoted_list (lit "Resources") (links id (sv_resources s))
    ++ quoted_list (lit "Renames")
         (map (fun e => [Span [Code (sid_display (fst e)); Plain (lit " renamed to "); Code (snd e)]]) (sv_renames s)).

  (** [describe_operation], writer.rs:413-445. *)
  Definition describe_operation (id : shape_id) (o : operation) : list block :=
    match op_input o with
    | Some i => [Quote [Paragraph [Bold (lit "Input type"); Plain (lit ": "); shape_link id i]]]
    | None => []
    end
    ++ match op_output o with
       | Some i => [Quote [Paragraph [Bold (lit "Output type"); Plain (lit ": "); shape_link id i]]]
       | None => []
       end
    ++ match op_errors o with
       | [] => []
       | es => [Quote [Paragraph [Bold (lit "Errors"); Plain (lit ":")]; Bullets (links id es)]]
       end.

  (** One lifecycle operation, e.g. writer.rs:452-458. *)
  Definition lifecycle_item (id : shape_id) (name : str) (o : option shape_id) : list (list inline) :=
    match o with Some t => [[Code name; Plain (lit ": "); shape_link id t]] | None => [] end.
  (** [describe_resource], writer.rs:447-527. *)
  Definition describe_resource (id : shape_id) (r : resource) : list block :=
    quoted_list (lit "Resource Operations")
      (lifecycle_item id (lit "create") (rs_create r) ++ lifecycle_item id (lit "put") (rs_put r)
       ++ lifecycle_item id (lit "read") (rs_read r) ++ lifecycle_item id (lit "update") (rs_update r)
       ++ lifecycle_item id (lit "delete") (rs_delete r) ++ lifecycle_item id (lit "list") (rs_list r))
    ++ quoted_list (lit "Operations") (links id (rs_operations r))
    ++ quoted_list (lit "Collection Operations") (links id (rs_collection_operations r))
    ++ quoted_list (lit "Resources") (links id (rs_resources r)).

  (** [describe_shape], writer.rs:160-192. *)
  Definition kind_text (b : shape_kind) : str :=
    match b with
    | KSimple s => simple_display s
    | KList _ => lit "list"
    | KSet _ => lit "set"
    | KMap _ _ => lit "map"
    | KStructure _ => lit "structure"
    | KUnion _ => lit "union"
    | KService _ => lit "service"
    | KOperation _ => lit "operation"
    | KResource _ => lit "resource"
    | KUnresolved => lit "?"
    end.
  Definition describe_body (s : shape) : result (list block) :=
    match ts_body s with
    | KList mb | KSet mb => describe_list_or_set (ts_id s) mb
    | KMap k v => describe_map (ts_id s) k v
    | KStructure ms | KUnion ms => describe_structure_or_union (ts_id s) ms
    | KService sv => Ok (describe_service (ts_id s) sv)
    | KOperation o => Ok (describe_operation (ts_id s) o)
    | KResource r => Ok (describe_resource (ts_id s) r)
    | KSimple _ | KUnresolved => Ok []
    end.
  Definition describe_shape (s : shape) : result (list block) :=
    d <- describe_documentation (ts_traits s) ;;
    b <- describe_body s ;;
    Ok (Heading Section2 (sid_name (ts_id s) ++ lit " (" ++ kind_text (ts_body s) ++ lit ")")
          (Some (shape_id_to_label (ts_id s))) :: d ++ b).

  (** [describe_model_shapes], writer.rs:146-158. *)
  Fixpoint describe_names (m : model) (ids : list shape_id) : result (list block) :=
    match ids with
    | [] => Ok []
    | id :: ids' =>
        match model_shape m id with
        | None => Panic
        | Some s => a <- describe_shape s ;; b <- describe_names m ids' ;; Ok (a ++ b)
        end
    end.
  Definition describe_model_shapes (m : model) (ns : str) : result (list block) :=
    match filter (fun id => ns_eqb (sid_ns id) ns) (shape_names m) with
    | [] => Ok []
    | names =>
        b <- describe_names m (sort_by (fun a b => str_leb (sid_display a) (sid_display b)) names) ;;
        Ok (Heading Section1 (lit "Namespace " ++ ns) None :: b)
    end.
  Fixpoint describe_namespaces (m : model) (l : list str) : result (list block) :=
    match l with
    | [] => Ok []
    | ns :: l' => a <- describe_model_shapes m ns ;; b <- describe_namespaces m l' ;; Ok (a ++ b)
    end.

  (** [describe_model_metadata], writer.rs:529-538. *)
  Definition describe_model_metadata (m : model) : list block :=
    [Table [lit "Key"; lit "Value"]
       (map (fun e => [CPlain (fst e); CCode (value_display f64_str (snd e))]) (m_metadata m))].

  (** [describe_model], writer.rs:97-101 with [describe_this_model], 131-144.  [ns_order] is the order in which
      the set of namespaces is iterated. *)
  Definition describe_model (ns_order : list str) (m : model) : result document :=
    shapes <- (if has_shapes m then describe_namespaces m ns_order else Ok []) ;;
    Ok (Document (lit "Smithy Model")
          ([Paragraph [Plain (lit "Smithy Version: " ++ version_display (m_version m))]]
           ++ match m_metadata m with
              | [] => []
              | _ => Heading Section1 (lit "Metadata") None :: describe_model_metadata m
              end
           ++ shapes)).
End Describe.
