(** What a GraphML drawing of a model must contain. *)
From Verif.Model Require Import SemModel.
From Verif.Spec Require Import IdentitySpec.
From Verif.Spec Require Export XmlSpec.

(** The drawing: nodes with a type and perhaps a version, and edges with one data item. *)
Inductive drawn :=
| DNode (id : shape_id) (type : str) (version : option str)
| DEdge (source target : shape_id) (key text : str).

Definition type_name (b : shape_kind) : str :=
  match b with
  | KSimple SBlob => lit "blob" | KSimple SBoolean => lit "boolean" | KSimple SDocument => lit "document"
  | KSimple SString => lit "string" | KSimple SByte => lit "byte" | KSimple SShort => lit "short"
  | KSimple SInteger => lit "integer" | KSimple SLong => lit "long" | KSimple SFloat => lit "float"
  | KSimple SDouble => lit "double" | KSimple SBigInteger => lit "bigInteger"
  | KSimple SBigDecimal => lit "bigDecimal" | KSimple STimestamp => lit "timestamp"
  | KList _ => lit "list" | KSet _ => lit "set" | KMap _ _ => lit "map"
  | KStructure _ => lit "structure" | KUnion _ => lit "union"
  | KService _ => lit "service" | KOperation _ => lit "operation" | KResource _ => lit "resource"
  | KUnresolved => lit "unresolved"
  end.

(** The targets of a shape with the name of the member they belong to. *)
Definition named (n : string) (l : list shape_id) : list (str * shape_id) := map (fun t => (lit n, t)) l.
Definition maybe (o : option shape_id) : list shape_id := match o with Some t => [t] | None => [] end.
Definition targets (b : shape_kind) : list (str * shape_id) :=
  match b with
  | KSimple _ | KUnresolved => []
  | KList m | KSet m => [(lit "member", ms_target m)]
  | KMap k v => [(lit "key", ms_target k); (lit "value", ms_target v)]
  | KStructure ms | KUnion ms => map (fun e => (ms_id (snd e), ms_target (snd e))) ms
  | KService s => named "operations" (sv_operations s) ++ named "resources" (sv_resources s)
  | KOperation o => named "input" (maybe (op_input o)) ++ named "output" (maybe (op_output o)) ++ named "errors" (op_errors o)
  | KResource r =>
      named "create" (maybe (rs_create r)) ++ named "put" (maybe (rs_put r)) ++ named "read" (maybe (rs_read r))
      ++ named "update" (maybe (rs_update r)) ++ named "delete" (maybe (rs_delete r)) ++ named "list" (maybe (rs_list r))
      ++ named "operations" (rs_operations r) ++ named "collectionOperations" (rs_collection_operations r)
      ++ named "resources" (rs_resources r)
  end.
Definition version_of (b : shape_kind) : option str := match b with KService s => Some (sv_version s) | _ => None end.

(** One node per shape that is not unresolved, followed by one edge per trait and one per target. *)
Definition shape_drawing (s : shape) : list drawn :=
  match ts_body s with
  | KUnresolved => []
  | b =>
      DNode (ts_id s) (type_name b) (version_of b)
      :: map (fun t => DEdge (ts_id s) (fst t) (lit "trait") (lit "true")) (ts_traits s)
      ++ map (fun t => DEdge (ts_id s) (snd t) (lit "member") (fst t)) (targets b)
  end.
Definition drawing (m : model) : list drawn := flat_map (fun e => shape_drawing (snd e)) (m_shapes m).
Definition edges (l : list drawn) : list drawn := filter (fun d => match d with DEdge _ _ _ _ => true | _ => false end) l.
Definition nodes (l : list drawn) : list drawn := filter (fun d => match d with DNode _ _ _ => true | _ => false end) l.

(** As XML: the edges are numbered from [n] on, by a 16-bit counter. *)
Definition data (key : string) (text : str) : xml := Leaf (lit "data") [(lit "key", lit key)] text.
Definition edge_name (n : nat) : str := lit "e" ++ nat_to_str (Z.of_nat n mod 65536).
Fixpoint drawn_xml (n : nat) (l : list drawn) : list xml :=
  match l with
  | [] => []
  | DNode id type version :: l' =>
      Node (lit "node") [(lit "id", id_text id)]
        (data "type" type :: match version with Some v => [data "version" v] | None => [] end)
      :: drawn_xml n l'
  | DEdge source target key text :: l' =>
      Node (lit "edge") [(lit "id", edge_name n); (lit "source", id_text source); (lit "target", id_text target)]
        [Leaf (lit "data") [(lit "key", key)] text]
      :: drawn_xml (S n) l'
  end.
Definition key_decl (id for_ name type : string) (kids : list xml) : xml :=
  Node (lit "key") [(lit "id", lit id); (lit "for", lit for_); (lit "attr.name", lit name); (lit "attr.type", lit type)] kids.
Definition graphml_xml (m : model) : xml :=
  Node (lit "graphml")
    [ (lit "xmlns", lit "http://graphml.graphdrawing.org/xmlns");
      (lit "xmlns:xsi", lit "http://www.w3.org/2001/XMLSchema-instance");
      (lit "xsi:schemaLocation",
       lit "http://graphml.graphdrawing.org/xmlns         http://graphml.graphdrawing.org/xmlns/1.0/graphml.xsd") ]
    [ key_decl "smithy-version" "graph" "smithy.version" "string" [];
      key_decl "type" "node" "type" "string" [];
      key_decl "version" "node" "version" "string" [];
      key_decl "trait" "edge" "trait" "boolean" [];
      key_decl "member" "edge" "member" "string" [Leaf (lit "default") [] (lit "member")];
      Node (lit "graph") [(lit "id", lit "model"); (lit "edgedefault", lit "directed")]
        (data "smithy.version" (lit "1.0") :: drawn_xml 0 (drawing m)) ].

(** The models considered: every identifier the drawing shows is valid, and the service versions are
    texts XML allows. *)
Definition drawable (d : drawn) : Prop :=
  match d with
  | DNode id _ version => valid_id id /\ match version with Some v => char_data v | None => True end
  | DEdge source target _ text => valid_id source /\ valid_id target /\ is_identifier text
  end.
