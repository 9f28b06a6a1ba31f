(** Model of atelier-core/src/model/visitor.rs. *)
From Verif.Model Require Export SemModel.

(** A call of a method of [ModelVisitor], visitor.rs:70-100, or of [MemberVisitor], 117-132. *)
Inductive call :=
| CMetadata (k : str) (v : value)
| CSimple (id : shape_id) (ts : traits) (s : simple)
| CList (id : shape_id) (ts : traits) (m : member_shape)
| CSet (id : shape_id) (ts : traits) (m : member_shape)
| CMap (id : shape_id) (ts : traits) (k v : member_shape)
| CStructure (id : shape_id) (ts : traits) (ms : members)
| CUnion (id : shape_id) (ts : traits) (ms : members)
| CService (id : shape_id) (ts : traits) (s : service)
| COperation (id : shape_id) (ts : traits) (o : operation)
| CResource (id : shape_id) (ts : traits) (r : resource)
| CUnresolved (id : shape_id) (ts : traits)
| CMember (parent : shape_id) (name : str) (target : shape_id) (ts : option traits).

Section Walk.
  (** The visitor: [S] is whatever it can change by interior mutability, [E] its error type. [answer]
      is what its methods do; [has_members] tells whether [member_visitor()] is [Some]
      (simplification: the answer does not change during the walk). *)
  Context {S E : Type}.
  Record visitor := Visitor { answer : call -> S -> S * option E; has_members : bool }.

  (** A piece of the walk: new state and the error returned, if any. *)
  Definition walk := S -> S * option E.
  (** [return Ok(())]. *)
  Definition done : walk := fun s => (s, None).
  (** [a?; b]. *)
  Definition then_ (a b : walk) : walk :=
    fun s => match a s with (s', None) => b s' | (s', Some e) => (s', Some e) end.
  (** [for x in l { f(x)?; }]. *)
  Definition for_each {A} (f : A -> walk) (l : list A) : walk := fold_right (fun x w => then_ (f x) w) done l.
  (** [if let Some(x) = o { f(x)?; }]. *)
  Definition if_some {A} (o : option A) (f : A -> walk) : walk := match o with Some x => f x | None => done end.

  Definition visit_member (v : visitor) (id : shape_id) (m : member_shape) : walk :=
    answer v (CMember id (ms_id m) (ms_target m) (Some (ms_traits m))).
  Definition visit_target (v : visitor) (id : shape_id) (name : string) (t : shape_id) : walk :=
    answer v (CMember id (lit name) t None).
  (** [if let Some(member_visitor) = visitor.member_visitor() { w }]. *)
  Definition with_members (v : visitor) (w : walk) : walk := if has_members v then w else done.

  (** One round of the second loop of [walk_model], visitor.rs:151-346. *)
  Definition visit_shape (v : visitor) (s : shape) : walk :=
    let id := ts_id s in let ts := ts_traits s in
    match ts_body s with
    | KSimple b => answer v (CSimple id ts b)
    | KList m => then_ (answer v (CList id ts m)) (with_members v (visit_member v id m))
    | KSet m => then_ (answer v (CSet id ts m)) (with_members v (visit_member v id m))
    | KMap k w =>
        then_ (answer v (CMap id ts k w)) (with_members v (then_ (visit_member v id k) (visit_member v id w)))
    | KStructure ms =>
        then_ (answer v (CStructure id ts ms)) (with_members v (for_each (visit_member v id) (hm_values ms)))
    | KUnion ms =>
        then_ (answer v (CUnion id ts ms)) (with_members v (for_each (visit_member v id) (hm_values ms)))
    | KService b =>
        then_ (answer v (CService id ts b))
          (with_members v
             (then_ (for_each (visit_target v id "operations") (sv_operations b))
                    (for_each (visit_target v id "resources") (sv_resources b))))
    | KOperation b =>
        then_ (answer v (COperation id ts b))
          (with_members v
             (then_ (if_some (op_input b) (visit_target v id "input"))
             (then_ (if_some (op_output b) (visit_target v id "output"))
                    (for_each (visit_target v id "errors") (op_errors b)))))
    | KResource b =>
        then_ (answer v (CResource id ts b))
          (with_members v
             (then_ (if_some (rs_create b) (visit_target v id "create"))
             (then_ (if_some (rs_put b) (visit_target v id "put"))
             (then_ (if_some (rs_read b) (visit_target v id "read"))
             (then_ (if_some (rs_update b) (visit_target v id "update"))
             (then_ (if_some (rs_delete b) (visit_target v id "delete"))
             (then_ (if_some (rs_list b) (visit_target v id "list"))
             (then_ (for_each (visit_target v id "operations") (rs_operations b))
             (then_ (for_each (visit_target v id "collectionOperations") (rs_collection_operations b))
                    (for_each (visit_target v id "resources") (rs_resources b)))))))))))
    | KUnresolved => answer v (CUnresolved id ts)
    end.

  (** [walk_model], visitor.rs:143-350. *)
  Definition walk_model (m : model) (v : visitor) : walk :=
    then_ (for_each (fun kv => answer v (CMetadata (fst kv) (snd kv))) (m_metadata m))
          (for_each (visit_shape v) (shapes m)).
End Walk.
Arguments visitor : clear implicits.
Arguments Visitor {S E}.
