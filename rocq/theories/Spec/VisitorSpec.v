(** The calls a visitor must receive. *)
From Verif.Model Require Import Visitor.

(** The members of a shape as visitors see them: name, target and traits; members of service shapes
    have no traits. Resource identifiers and service renames are not members. *)
Definition opt_link (n : string) (o : option shape_id) : list (str * shape_id * option traits) :=
  match o with Some t => [(lit n, t, None)] | None => [] end.
Definition links (n : string) (l : list shape_id) : list (str * shape_id * option traits) :=
  map (fun t => (lit n, t, None)) l.
Definition member_link (m : member_shape) : str * shape_id * option traits := (ms_id m, ms_target m, Some (ms_traits m)).
Definition shape_links (b : shape_kind) : list (str * shape_id * option traits) :=
  match b with
  | KSimple _ | KUnresolved => []
  | KList m | KSet m => [member_link m]
  | KMap k v => [member_link k; member_link v]
  | KStructure ms | KUnion ms => map (fun e => member_link (snd e)) ms
  | KService s => links "operations" (sv_operations s) ++ links "resources" (sv_resources s)
  | KOperation o => opt_link "input" (op_input o) ++ opt_link "output" (op_output o) ++ links "errors" (op_errors o)
  | KResource r =>
      opt_link "create" (rs_create r) ++ opt_link "put" (rs_put r) ++ opt_link "read" (rs_read r)
      ++ opt_link "update" (rs_update r) ++ opt_link "delete" (rs_delete r) ++ opt_link "list" (rs_list r)
      ++ links "operations" (rs_operations r) ++ links "collectionOperations" (rs_collection_operations r)
      ++ links "resources" (rs_resources r)
  end.

(** The one call for a shape, by kind. *)
Definition shape_call (s : shape) : call :=
  match ts_body s with
  | KSimple b => CSimple (ts_id s) (ts_traits s) b
  | KList m => CList (ts_id s) (ts_traits s) m
  | KSet m => CSet (ts_id s) (ts_traits s) m
  | KMap k v => CMap (ts_id s) (ts_traits s) k v
  | KStructure ms => CStructure (ts_id s) (ts_traits s) ms
  | KUnion ms => CUnion (ts_id s) (ts_traits s) ms
  | KService b => CService (ts_id s) (ts_traits s) b
  | KOperation b => COperation (ts_id s) (ts_traits s) b
  | KResource b => CResource (ts_id s) (ts_traits s) b
  | KUnresolved => CUnresolved (ts_id s) (ts_traits s)
  end.
Definition member_calls (s : shape) : list call :=
  map (fun l => CMember (ts_id s) (fst (fst l)) (snd (fst l)) (snd l)) (shape_links (ts_body s)).

(** All calls for a model: metadata first, then each shape directly followed by its members (if there
    is a member visitor). *)
Definition expected_calls (with_members : bool) (m : model) : list call :=
  map (fun kv => CMetadata (fst kv) (snd kv)) (m_metadata m)
  ++ flat_map (fun e => shape_call (snd e) :: if with_members then member_calls (snd e) else []) (m_shapes m).

(** A visitor answering a list of calls in turn, up to and including the first it refuses: the calls
    it saw, its state and its error. *)
Fixpoint play {S E} (v : visitor S E) (calls : list call) (s : S) : list call * S * option E :=
  match calls with
  | [] => ([], s, None)
  | c :: calls' =>
      match answer v c s with
      | (s', Some e) => ([c], s', Some e)
      | (s', None) => let '(seen, s'', r) := play v calls' s' in (c :: seen, s'', r)
      end
  end.
(** The same visitor keeping a record of every call it gets. *)
Definition recording {S E} (v : visitor S E) : visitor (list call * S) E :=
  Visitor (fun c ls => let (s', r) := answer v c (snd ls) in ((fst ls ++ [c], s'), r)) (has_members v).

Definition is_shape_call (c : call) : bool :=
  match c with CMetadata _ _ | CMember _ _ _ _ => false | _ => true end.
Definition is_metadata_call (c : call) : bool := match c with CMetadata _ _ => true | _ => false end.
