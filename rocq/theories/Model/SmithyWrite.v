(** Model of atelier-smithy/src/writer.rs: the text that [SmithyWriter::write] puts out. *)
From Verif.Model Require Export SemModel Json Prelude.

Definition nl : str := [ascii_of_N 10].
Definition indent : str := lit "    ".
(** [writeln!(w, "    {}: {}", key, text)]. *)
Definition field (k : string) (t : str) : str := indent ++ lit k ++ lit ": " ++ t ++ nl.
Definition opt_field (k : string) (o : option shape_id) : str :=
  match o with Some id => field k (sid_name id) | None => [] end.
(** The arrays of shape names, e.g. writer.rs:159-170. *)
Definition names_field (k : string) (l : list shape_id) : str :=
  match l with [] => [] | _ => field k (lit "[" ++ join (lit ", ") (map sid_name l) ++ lit "]") end.

Section Write.
  (** [Display for f64] and [Debug for str] of the standard library. *)
  Variables (f64_str : Z -> str) (debug_str : str -> str).

  (** [write_value], writer.rs:312-347. *)
  Fixpoint write_value (v : value) (top : bool) : str :=
    match v with
    | VArray vs => lit "[" ++ join (lit ", ") (map (fun v => write_value v false) vs) ++ lit "]"
    | VObject vs =>
        (if top then [] else lit "{")
        ++ join (lit ", ") (map (fun kv => fst kv ++ lit ": " ++ write_value (snd kv) false) vs)
        ++ (if top then [] else lit "}")
    | VNumber n => number_display f64_str n
    | VBoolean b => bool_str b
    | VString s => debug_str s
    | VNone => []
    end.

  Section Namespace.
    (** The writer's [namespace], writer.rs:39-42. *)
    Variable ns : str.

    (** [write_trait], writer.rs:286-310. *)
    Definition trait_name (id : shape_id) : str :=
      if ns_eqb (sid_ns id) ns || ns_eqb (sid_ns id) prelude_ns then sid_name id else sid_display id.
    Definition write_trait (prefix : str) (t : shape_id * option value) : str :=
      prefix ++ lit "@" ++ trait_name (fst t)
      ++ match snd t with None => nl | Some v => lit "(" ++ write_value v true ++ lit ")" ++ nl end.
    (** [write_member], writer.rs:361-378; [write_members], 349-359. *)
    Definition write_member (m : member_shape) : str :=
      concat (map (write_trait indent) (ms_traits m))
      ++ indent ++ ms_id m ++ lit ": " ++ sid_name (ms_target m) ++ nl.
    Definition write_members (ms : members) : str := concat (map (fun e => write_member (snd e)) ms).

    (** The [match] of [write_shape_statements], writer.rs:121-280. *)
    Definition block (kw : string) (name : str) (content : str) : str :=
      lit kw ++ lit " " ++ name ++ lit " {" ++ nl ++ content ++ lit "}" ++ nl.
    Definition write_body (s : shape) : str :=
      let name := sid_name (ts_id s) in
      match ts_body s with
      | KSimple st => simple_display st ++ lit " " ++ name ++ nl
      | KList m => block "list" name (field "member" (sid_display (ms_target m)))
      | KSet m => block "set" name (field "member" (sid_display (ms_target m)))
      | KMap k v =>
          block "map" name (field "key" (sid_name (ms_target k)) ++ field "value" (sid_name (ms_target v)))
      | KStructure ms => block "structure" name (write_members ms)
      | KUnion ms => block "union" name (write_members ms)
      | KService sv =>
          block "service" name
            (field "version" (debug_str (sv_version sv))
             ++ names_field "operations" (sv_operations sv) ++ names_field "resources" (sv_resources sv))
      | KOperation o =>
          block "operation" name
            (opt_field "input" (op_input o) ++ opt_field "output" (op_output o) ++ names_field "errors" (op_errors o))
      | KResource r =>
          block "resource" name
            (match rs_identifiers r with
             | [] => []
             | ids =>
                 indent ++ lit "identifiers: {" ++ nl
                 ++ concat (map (fun e => indent ++ indent ++ fst e ++ lit ": " ++ sid_name (snd e) ++ nl) ids)
                 ++ indent ++ lit "}" ++ nl
             end
             ++ opt_field "create" (rs_create r) ++ opt_field "put" (rs_put r) ++ opt_field "read" (rs_read r)
             ++ opt_field "update" (rs_update r) ++ opt_field "delete" (rs_delete r) ++ opt_field "list" (rs_list r)
             ++ names_field "operations" (rs_operations r)
             ++ names_field "collectionOperations" (rs_collection_operations r)
             ++ names_field "resources" (rs_resources r))
      | KUnresolved =>
          concat (map (fun t => lit "apply " ++ sid_display (ts_id s) ++ lit " " ++ write_trait [] t) (ts_traits s))
      end.
    (** [write_shape_statements], writer.rs:110-284. *)
    Definition write_shape (s : shape) : str :=
      (if is_unresolved (ts_body s) then [] else concat (map (write_trait []) (ts_traits s))) ++ write_body s ++ nl.
    Definition write_shapes (m : model) : str :=
      concat (map write_shape (filter (fun s => ns_eqb (sid_ns (ts_id s)) ns) (shapes m))).
    (** [write_use_section], writer.rs:99-108. *)
    Definition write_uses (m : model) : str :=
      concat (map (fun s => lit "use " ++ sid_display (ts_id s) ++ nl)
                  (filter (fun s => is_unresolved (ts_body s) && negb (has_traits (ts_traits s))) (shapes m))) ++ nl.
    (** [write_namespace_statement], writer.rs:93-97. *)
    Definition write_namespace : str := lit "namespace " ++ ns ++ nl ++ nl.
    (** [write_metadata_section], writer.rs:76-86. *)
    Definition write_metadata (m : model) : str :=
      match m_metadata m with
      | [] => []
      | md => concat (map (fun kv => lit "metadata " ++ [dquote] ++ fst kv ++ [dquote] ++ lit " = "
                                     ++ write_value (snd kv) true ++ nl) md) ++ nl
      end.
    (** [write_control_section], writer.rs:64-74. *)
    Definition write_control (m : model) : str :=
      lit "$version: " ++ [dquote] ++ version_display (m_version m) ++ [dquote] ++ nl ++ nl.
    (** [SmithyWriter::write], writer.rs:49-53. *)
    Definition write_smithy (m : model) : str :=
      write_control m ++ write_metadata m ++ write_namespace ++ write_uses m ++ write_shapes m.
  End Namespace.
End Write.
