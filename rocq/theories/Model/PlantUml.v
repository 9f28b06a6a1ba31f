(** Model of atelier-describe/src/plant_uml/writer.rs. *)
From Verif.Model Require Export SemModel.

(** [\n], the end of line of [writeln!] and the separator of the two [join]s. *)
Definition eol : ascii := "010".

Section PlantUml.
  Context `{Hasher}.
  (** [Display for f64] and [Debug for str] of the standard library. *)
  Variables (f64_str : Z -> str) (debug_str : str -> str).
  (** The field of [PlantUmlWriter], writer.rs:135-137. *)
  Variable expand_smithy_api : bool.

  (** Every function below gives the arguments of its [writeln!]s in order (simplification: the sink
      never fails). *)

  (** The ids of [ShapeID::from_str(..).unwrap()], writer.rs:315, 317, 401, 403. *)
  Definition pu_trait : shape_id := SID "smithy.api" "trait" None.
  Definition pu_error : shape_id := SID "smithy.api" "error" None.
  Definition pu_documentation : shape_id := SID "smithy.api" "documentation" None.

  (** [type_string], writer.rs:444-461. *)
  Definition type_string (type_id : shape_id) (m : model) : str :=
    match model_shape m type_id with
    | Some s =>
        match ts_body s with
        | KSimple st => simple_display st
        | KList mb => lit "List<" ++ sid_name (ms_target mb) ++ lit ">"
        | KSet mb => lit "Set<" ++ sid_name (ms_target mb) ++ lit ">"
        | KMap k v => lit "Map<" ++ sid_name (ms_target k) ++ lit ", " ++ sid_name (ms_target v) ++ lit ">"
        | _ => sid_display type_id
        end
    | None => sid_display type_id
    end.

  (** [write_operation], writer.rs:358-390; both [unwrap]s can panic. *)
  Definition write_operation (oper_id : shape_id) (m : model) (other_name : option str) : result (list str) :=
    match model_shape m oper_id with
    | None => Panic
    | Some s =>
        match ts_body s with
        | KOperation o =>
            Ok [ lit "        " ++ match other_name with None => sid_display (ts_id s) | Some n => n end
                 ++ lit "(in: "
                 ++ match op_input o with Some i => type_string i m | None => [] end
                 ++ lit ")"
                 ++ match op_output o with Some i => lit ": " ++ type_string i m | None => [] end ]
        | _ => Panic
        end
    end.

  (** A [for] loop over ids that calls [write_operation], e.g. writer.rs:241-243. *)
  Fixpoint write_operations (ids : list shape_id) (m : model) (other_name : option str) : result (list str) :=
    match ids with
    | [] => Ok []
    | id :: ids' =>
        l <- write_operation id m other_name ;;
        ls <- write_operations ids' m other_name ;;
        Ok (l ++ ls)
    end.

  (** [if let Some(id) = .. { self.write_operation(w, id, model, Some("create"))?; }],
      writer.rs:265-282. *)
  Definition write_lifecycle (id : option shape_id) (m : model) : result (list str) :=
    match id with Some i => write_operation i m (Some (lit "create")) | None => Ok [] end.

  (** The [match value] of [write_class_traits], writer.rs:408-415. *)
  Definition trait_line (id : shape_id) (v : option value) : str :=
    match v with
    | None | Some VNone => lit "    @" ++ sid_display id
    | Some (VString s) => lit "    @" ++ sid_display id ++ lit " = """ ++ s ++ lit """"
    | Some (VNumber n) => lit "    @" ++ sid_display id ++ lit " = " ++ number_display f64_str n
    | Some (VBoolean b) => lit "    @" ++ sid_display id ++ lit " = " ++ bool_str b
    | Some (VArray _) => lit "    @" ++ sid_display id ++ lit " = [ .. ]"
    | Some (VObject _) => lit "    @" ++ sid_display id ++ lit " = { .. }"
    end.

  (** The loop of [write_class_traits], writer.rs:400-418: the trait lines and the notes. *)
  Fixpoint collect_traits (ts : traits) : list str * list str :=
    match ts with
    | [] => ([], [])
    | (id, v) :: ts' =>
        let (lines, notes) := collect_traits ts' in
        if sid_eqb id pu_error then (lines, notes)
        else if sid_eqb id pu_documentation then
          (lines, match v with Some (VString s) => s :: notes | _ => notes end)
        else (trait_line id v :: lines, notes)
    end.

  (** [write_class_traits], writer.rs:392-423. *)
  Definition write_class_traits (s : shape) : list str * list str :=
    let (lines, notes) := collect_traits (ts_traits s) in
    (match lines with [] => [] | _ => [lit "    " ++ join [eol] lines; lit "        .."] end, notes).

  (** [str::contains(char)]. *)
  Definition contains_ch (c : ascii) (s : str) : bool := existsb (Ascii.eqb c) s.

  (** [write_class_notes], writer.rs:425-442, from the index [idx] on. *)
  Fixpoint write_class_notes (id : shape_id) (idx : nat) (notes : list str) : list str :=
    match notes with
    | [] => []
    | note :: notes' =>
        let name := sid_display id ++ lit "_note_" ++ nat_to_str (Z.of_nat idx) in
        (if contains_ch eol note
         then [lit "    note as " ++ name; debug_str note; lit "    end note"]
         else [lit "    note " ++ debug_str note ++ lit " as " ++ name])
        ++ [lit "    " ++ sid_display id ++ lit " .. " ++ name]
        ++ write_class_notes id (S idx) notes'
    end.

  (** The loops over the resources, writer.rs:246-248 and 297-299. *)
  Definition resource_links (id : shape_id) (rs : list shape_id) : list str :=
    map (fun r => lit "    " ++ sid_display id ++ lit " *-- " ++ sid_display r) rs.

  (** [write_service], writer.rs:225-251. *)
  Definition write_service (s : shape) (sv : service) (m : model) : result (list str) :=
    let (traits, notes) := write_class_traits s in
    ops <- write_operations (sv_operations sv) m None ;;
    Ok ([lit "    class " ++ sid_display (ts_id s) ++ lit " <<service>> {"]
        ++ traits
        ++ [lit "        version: string = """ ++ sv_version sv ++ lit """"]
        ++ ops
        ++ [lit "    }"]
        ++ write_class_notes (ts_id s) 0 notes
        ++ resource_links (ts_id s) (sv_resources sv)
        ++ [[]]).

  (** A group of operations under its heading, writer.rs:283-294. *)
  Definition write_group (heading : str) (ids : list shape_id) (m : model) : result (list str) :=
    match ids with
    | [] => Ok []
    | _ => ops <- write_operations ids m None ;; Ok ((lit "        .." ++ heading ++ lit "..") :: ops)
    end.

  (** [write_resource], writer.rs:253-302. *)
  Definition write_resource (s : shape) (r : resource) (m : model) : result (list str) :=
    let (traits, notes) := write_class_traits s in
    c <- write_lifecycle (rs_create r) m ;;
    p <- write_lifecycle (rs_put r) m ;;
    rd <- write_lifecycle (rs_read r) m ;;
    u <- write_lifecycle (rs_update r) m ;;
    d <- write_lifecycle (rs_delete r) m ;;
    l <- write_lifecycle (rs_list r) m ;;
    ops <- write_group (lit "operations") (rs_operations r) m ;;
    cops <- write_group (lit "collectionOperations") (rs_collection_operations r) m ;;
    Ok ([lit "    class " ++ sid_display (ts_id s) ++ lit " <<resource>> {"]
        ++ traits
        ++ map (fun e => lit "        " ++ fst e ++ lit ": " ++ sid_display (snd e)) (rs_identifiers r)
        ++ c ++ p ++ rd ++ u ++ d ++ l ++ ops ++ cops
        ++ [lit "    }"]
        ++ write_class_notes (ts_id s) 0 notes
        ++ resource_links (ts_id s) (rs_resources r)
        ++ [[]]).

  (** [write_class], writer.rs:304-332. *)
  Definition write_class (s : shape) (is_union : bool) (ms : members) : list str :=
    let (traits, notes) := write_class_traits s in
    [ if has_trait pu_trait (ts_traits s) then lit "    annotation " ++ sid_display (ts_id s) ++ lit " {"
      else if has_trait pu_error (ts_traits s) then lit "    class " ++ sid_display (ts_id s) ++ lit " <<error>> {"
      else if is_union then lit "    class " ++ sid_display (ts_id s) ++ lit " <<union>> {"
      else lit "    class " ++ sid_display (ts_id s) ++ lit " {" ]
    ++ traits
    ++ map (fun mb => lit "        " ++ ms_id mb ++ lit ": " ++ sid_display (ms_target mb)) (hm_values ms)
    ++ [lit "    }"]
    ++ write_class_notes (ts_id s) 0 notes
    ++ [[]].

  (** [write_data_type], writer.rs:334-356. *)
  Definition write_data_type (s : shape) (st : simple) : list str :=
    let (traits, notes) := write_class_traits s in
    [lit "    class " ++ sid_display (ts_id s) ++ lit " <<dataType>> {"]
    ++ traits
    ++ [lit "    }"; lit "    " ++ join [eol] notes]
    ++ (if expand_smithy_api
        then [lit "    smithy.api." ++ simple_display st ++ lit " <|-- " ++ sid_display (ts_id s)] else [])
    ++ [[]].

  (** [write_smithy_model], writer.rs:201-223. *)
  Definition write_smithy_model : list str :=
    [lit "package smithy.api {"]
    ++ map (fun name => lit "    class " ++ lit name ++ lit " <<primitive>> { }")
         [ "blob"; "boolean"; "document"; "string"; "byte"; "short"; "integer"; "long"; "float"; "double";
           "bigInteger"; "bigDecimal"; "timestamp" ]%string
    ++ [lit "}"; []].

  (** The [match element.body()] of [write], writer.rs:171-179. *)
  Definition write_element (s : shape) (m : model) : result (list str) :=
    match ts_body s with
    | KSimple st => Ok (write_data_type s st)
    | KService sv => write_service s sv m
    | KResource r => write_resource s r m
    | KStructure ms => Ok (write_class s false ms)
    | KUnion ms => Ok (write_class s true ms)
    | _ => Ok []
    end.
  Fixpoint write_elements (l : list shape) (m : model) : result (list str) :=
    match l with
    | [] => Ok []
    | s :: l' => a <- write_element s m ;; b <- write_elements l' m ;; Ok (a ++ b)
    end.

  (** One round of the loop of [write], writer.rs:167-185. *)
  Definition write_package (ns : str) (m : model) : result (list str) :=
    shapes <- write_elements (shapes m) m ;;
    Ok ([lit "package " ++ ns ++ lit " {"; []] ++ shapes ++ [lit "}"]
        ++ (if expand_smithy_api then [ns ++ lit " ..> smithy.api"] else [])).
  Fixpoint write_packages (l : list str) (m : model) : result (list str) :=
    match l with
    | [] => Ok []
    | ns :: l' => a <- write_package ns m ;; b <- write_packages l' m ;; Ok (a ++ b)
    end.

  (** [PlantUmlWriter::write], writer.rs:157-189.  [ns_order] is the order in which the [HashSet] of
      namespaces, collected like [Model::namespaces], is iterated. *)
  Definition plantuml_lines (ns_order : list str) (m : model) : result (list str) :=
    packages <- write_packages ns_order m ;;
    Ok ([lit "@startuml"; []; lit "hide empty members"; []]
        ++ (if expand_smithy_api then write_smithy_model else [])
        ++ packages
        ++ [[]; lit "@enduml"]).
  (** What the sink has received when [write] returns. *)
  Definition plantuml_write (ns_order : list str) (m : model) : result str :=
    ls <- plantuml_lines ns_order m ;;
    Ok (concat (map (fun l => l ++ [eol]) ls)).
End PlantUml.
