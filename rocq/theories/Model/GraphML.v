(** Model of atelier-describe/src/graphml/writer.rs. *)
From Verif.Model Require Export Visitor Json.

(** [VisitorState], writer.rs:142-145: the [u16] edge counter and what the sink has received
    (simplification: the sink never fails, like a [Vec<u8>]). *)
Record gstate := GState { g_count : Z; g_text : str }.
(** The only way a method of the visitor can stop the walk once the sink does not fail. *)
Inductive stop := Panicked.
Notation gwalk := (@walk gstate stop).

(** [\n], the end of line of [writeln!]. *)
Definition eol : ascii := "010".
(** [writeln!(w, ..)]. *)
Definition put (line : str) : gwalk := fun s => (GState (g_count s) (g_text s ++ line ++ [eol]), None).

Section GraphML.
  (** Whether the crate is built with arithmetic overflow checks (the default debug profile) or not
      (release). *)
  Variable overflow_checks : bool.

  (** [edge_id], writer.rs:456-460: [let id = count; count = id + 1; format!("e{}", id)] on a [u16]. *)
  Definition with_edge_id (k : str -> gwalk) : gwalk :=
    fun s =>
      let id := g_count s in
      if overflow_checks && (65535 <=? id)%Z then (s, Some Panicked)
      else k (lit "e" ++ nat_to_str id) (GState ((id + 1) mod 65536) (g_text s)).

  (** [node], writer.rs:412-422. *)
  Definition node (id : shape_id) (type_str : str) : gwalk :=
    then_ (put (lit "        <node id=""" ++ sid_display id ++ lit """>"))
    (then_ (put (lit "            <data key=""type"">" ++ type_str ++ lit "</data>"))
           (put (lit "        </node>"))).

  (** The opening tag of an edge, writer.rs:427-431 and 445-449. *)
  Definition edge_line (edge_id : str) (source target : shape_id) : str :=
    lit "        <edge id=""" ++ edge_id ++ lit """ source=""" ++ sid_display source
    ++ lit """ target=""" ++ sid_display target ++ lit """>".

  (** [member], writer.rs:424-439. *)
  Definition member_edge (source : shape_id) (name : str) (target : shape_id) : gwalk :=
    with_edge_id (fun edge_id =>
      then_ (put (edge_line edge_id source target))
      (then_ (put (lit "            <data key=""member"">" ++ name ++ lit "</data>"))
             (put (lit "        </edge>")))).

  (** [traits], writer.rs:441-454. *)
  Definition trait_edges (id : shape_id) (ts : traits) : gwalk :=
    for_each (fun trait_id =>
      with_edge_id (fun edge_id =>
        then_ (put (edge_line edge_id id trait_id))
        (then_ (put (lit "            <data key=""trait"">true</data>"))
               (put (lit "        </edge>"))))) (map fst ts).

  (** The [ModelVisitor] methods, writer.rs:247-409; the methods that are not overridden (metadata,
      unresolved_id, member_visitor) do nothing, visitor.rs:33-100. *)
  Definition graphml_answer (c : call) : gwalk :=
    match c with
    | CMetadata _ _ | CUnresolved _ _ | CMember _ _ _ _ => done
    | CSimple id ts s => then_ (node id (simple_display s)) (trait_edges id ts)
    | CList id ts m =>
        then_ (node id (lit "list")) (then_ (trait_edges id ts) (member_edge id (lit "member") (ms_target m)))
    | CSet id ts m =>
        then_ (node id (lit "set")) (then_ (trait_edges id ts) (member_edge id (lit "member") (ms_target m)))
    | CMap id ts k v =>
        then_ (node id (lit "map")) (then_ (trait_edges id ts)
          (then_ (member_edge id (lit "key") (ms_target k)) (member_edge id (lit "value") (ms_target v))))
    | CStructure id ts ms =>
        then_ (node id (lit "structure")) (then_ (trait_edges id ts)
          (for_each (fun m => member_edge id (ms_id m) (ms_target m)) (hm_values ms)))
    | CUnion id ts ms =>
        then_ (node id (lit "union")) (then_ (trait_edges id ts)
          (for_each (fun m => member_edge id (ms_id m) (ms_target m)) (hm_values ms)))
    | COperation id ts o =>
        then_ (node id (lit "operation")) (then_ (trait_edges id ts)
          (then_ (if_some (op_input o) (member_edge id (lit "input")))
          (then_ (if_some (op_output o) (member_edge id (lit "output")))
                 (for_each (member_edge id (lit "errors")) (op_errors o)))))
    | CService id ts s =>
        then_ (put (lit "        <node id=""" ++ sid_display id ++ lit """>"))
        (then_ (put (lit "            <data key=""type"">" ++ lit "service" ++ lit "</data>"))
        (then_ (put (lit "            <data key=""version"">" ++ sv_version s ++ lit "</data>"))
        (then_ (put (lit "        </node>"))
        (then_ (trait_edges id ts)
        (then_ (for_each (member_edge id (lit "operations")) (sv_operations s))
               (for_each (member_edge id (lit "resources")) (sv_resources s)))))))
    | CResource id ts r =>
        then_ (node id (lit "resource")) (then_ (trait_edges id ts)
          (then_ (if_some (rs_create r) (member_edge id (lit "create")))
          (then_ (if_some (rs_put r) (member_edge id (lit "put")))
          (then_ (if_some (rs_read r) (member_edge id (lit "read")))
          (then_ (if_some (rs_update r) (member_edge id (lit "update")))
          (then_ (if_some (rs_delete r) (member_edge id (lit "delete")))
          (then_ (if_some (rs_list r) (member_edge id (lit "list")))
          (then_ (for_each (member_edge id (lit "operations")) (rs_operations r))
          (then_ (for_each (member_edge id (lit "collectionOperations")) (rs_collection_operations r))
                 (for_each (member_edge id (lit "resources")) (rs_resources r)))))))))))
    end.
  Definition graphml_visitor : visitor gstate stop := Visitor graphml_answer false.

  (** The lines before the shapes, writer.rs:167-194 with [write_keys], 209-244. *)
  Definition graphml_head (m : model) : list str :=
    [ lit "<?xml version=""1.0"" encoding=""UTF-8""?>";
      lit "<graphml xmlns=""http://graphml.graphdrawing.org/xmlns""";
      lit "    xmlns:xsi=""http://www.w3.org/2001/XMLSchema-instance""";
      lit "    xsi:schemaLocation=""http://graphml.graphdrawing.org/xmlns";
      lit "        http://graphml.graphdrawing.org/xmlns/1.0/graphml.xsd"">";
      lit "    <key id=""smithy-version"" for=""graph"" attr.name=""smithy.version"" attr.type=""string""/>";
      lit "    <key id=""type"" for=""node"" attr.name=""type"" attr.type=""string""/>";
      lit "    <key id=""version"" for=""node"" attr.name=""version"" attr.type=""string""/>";
      lit "    <key id=""trait"" for=""edge"" attr.name=""trait"" attr.type=""boolean""/>";
      lit "    <key id=""member"" for=""edge"" attr.name=""member"" attr.type=""string"">";
      lit "        <default>member</default>";
      lit "    </key>";
      lit "    <graph id=""model"" edgedefault=""directed"">";
      lit "        <data key=""smithy.version"">" ++ version_display (m_version m) ++ lit "</data>" ].

  (** [GraphMLWriter::write], writer.rs:166-205. *)
  Definition graphml_write (m : model) : result str :=
    match
      then_ (for_each put (graphml_head m))
        (then_ (walk_model m graphml_visitor) (then_ (put (lit "    </graph>")) (put (lit "</graphml>"))))
        (GState 0 [])
    with
    | (s, None) => Ok (g_text s)
    | (_, Some Panicked) => Panic
    end.
End GraphML.
