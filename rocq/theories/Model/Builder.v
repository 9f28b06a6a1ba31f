(** Model of atelier-core/src/builder/{mod,id,shapes,traits}.rs: the model builder. *)
From Verif.Model Require Export SemModel Prelude.

(** [ShapeName], builder/id.rs:19-23; [FromStr], 62-74; [shape_name()], 101-106. *)
Inductive shape_name := Qualified (id : shape_id) | Local (n : str).
Definition shape_name_from_str (s : str) : result shape_name :=
  if sid_is_valid s then match sid_from_str s with Ok i => Ok (Qualified i) | _ => Panic end
  else if ident_is_valid s then match ident_from_str s with Ok i => Ok (Local i) | _ => Panic end
  else Err (EInvalidShapeID s).
Definition name_of (n : shape_name) : str := match n with Qualified i => sid_name i | Local n => n end.
(** [x.unwrap()]. *)
Definition unwrap {A} (r : result A) : result A := match r with Ok a => Ok a | _ => Panic end.

(** [TraitBuilder], builder/traits.rs:36-39. *)
Record trait_builder := TB { tb_id : shape_name; tb_value : option value }.
(** [MemberBuilder], builder/shapes.rs:158-163. *)
Record member_builder := MB { mb_name : str; mb_traits : list trait_builder; mb_target : shape_name }.
(** [ServiceBuilder], shapes.rs:114-122; [OperationBuilder], 125-132; [ResourceBuilder], 135-149. *)
Record service_builder := SvB {
  svb_version : str; svb_operations : list shape_name; svb_resources : list shape_name;
  svb_renames : list (shape_id * str) }.
Record operation_builder := OpB {
  opb_input : option shape_name; opb_output : option shape_name; opb_errors : list shape_name }.
Record resource_builder := RsB {
  rsb_identifiers : list (str * shape_name); rsb_create : option shape_name; rsb_put : option shape_name;
  rsb_read : option shape_name; rsb_update : option shape_name; rsb_delete : option shape_name;
  rsb_list : option shape_name; rsb_operations : list shape_name; rsb_collection_operations : list shape_name;
  rsb_resources : list shape_name }.
(** [TopLevelShapeBuilder], builder/mod.rs:58-69. The fields [shape_name] (for [ReferenceBuilder]:
    [shape_id]) and [applied_traits], common to all builders of shapes.rs:81-155, are kept outside. *)
Inductive builder_body :=
| BSimple (s : simple)
| BList (m : member_builder)
| BSet (m : member_builder)
| BMap (k v : member_builder)
| BStructure (ms : list member_builder)
| BUnion (ms : list member_builder)
| BService (s : service_builder)
| BOperation (o : operation_builder)
| BResource (r : resource_builder)
| BReference.
Record shape_builder := SB { sb_name : shape_name; sb_traits : list trait_builder; sb_body : builder_body }.
Definition is_reference (b : shape_builder) : bool := match sb_body b with BReference => true | _ => false end.

(** [ModelBuilder], builder/mod.rs:46-54; the fields [make_references] and [prelude_namespace] are
    never read. *)
Record builder := Builder {
  bd_namespace : str;
  bd_version : version;
  bd_metadata : list (str * value);
  bd_shapes : list (shape_name * shape_builder) }.

(** ** Constructing the parts *)

(** [ModelBuilder::new], builder/mod.rs:104-113. *)
Definition builder_new (v : version) (ns : str) : result builder :=
  n <- unwrap (ns_from_str ns) ;; Ok (Builder n v [] []).
(** [MemberBuilder::new], shapes.rs:773-779. *)
Definition member_new (name target : str) : result member_builder :=
  n <- unwrap (ident_from_str name) ;; t <- unwrap (shape_name_from_str target) ;; Ok (MB n [] t).
(** [SimpleShapeBuilder::new], shapes.rs:240-246; [ListBuilder::new], 330-336 (also used for sets);
    [MapBuilder::new], 367-374; [StructureBuilder::new], 395-401 (also for unions). *)
Definition simple_new (name : str) (s : simple) : result shape_builder :=
  n <- unwrap (shape_name_from_str name) ;; Ok (SB n [] (BSimple s)).
Definition list_new (name target : str) : result shape_builder :=
  n <- unwrap (shape_name_from_str name) ;; m <- member_new (lit "member") target ;; Ok (SB n [] (BList m)).
Definition map_new (name key value : str) : result shape_builder :=
  n <- unwrap (shape_name_from_str name) ;;
  k <- member_new (lit "key") key ;; v <- member_new (lit "value") value ;; Ok (SB n [] (BMap k v)).
Definition structure_new (name : str) : result shape_builder :=
  n <- unwrap (shape_name_from_str name) ;; Ok (SB n [] (BStructure [])).
(** [StructureBuilder::member], shapes.rs:404-407, and [string] etc., 416-483, which give the bare
    prelude name as target. *)
Definition structure_member (b : shape_builder) (name target : str) : result shape_builder :=
  m <- member_new name target ;;
  Ok match sb_body b with
     | BStructure ms => SB (sb_name b) (sb_traits b) (BStructure (ms ++ [m]))
     | BUnion ms => SB (sb_name b) (sb_traits b) (BUnion (ms ++ [m]))
     | _ => b
     end.
(** [ReferenceBuilder::new], shapes.rs:758-762: any [ShapeID], also one with a member. *)
Definition reference_new (name : str) : result shape_builder :=
  i <- unwrap (sid_from_str name) ;; Ok (SB (Qualified i) [] BReference).
(** [apply_trait] of [shape_traits_impl!], shapes.rs:62-71. *)
Definition sb_apply (b : shape_builder) (t : trait_builder) : shape_builder :=
  SB (sb_name b) (sb_traits b ++ [t]) (sb_body b).
Definition mb_apply (m : member_builder) (t : trait_builder) : member_builder :=
  MB (mb_name m) (mb_traits m ++ [t]) (mb_target m).
(** [TraitBuilder::new], [annotation], [with_value], builder/traits.rs:277-299. *)
Definition trait_new (id : str) (v : option value) : result trait_builder :=
  n <- unwrap (shape_name_from_str id) ;; Ok (TB n v).
Definition trait_annotation (id : str) : result trait_builder := trait_new id (Some (VObject [])).

Section WithHasher.
  Context `{Hasher}.

  (** Derived [Hash]/[PartialEq] of [ShapeName], id.rs:19: names of different variants never match
      (simplification: the discriminant fed to the hasher is ignored). *)
  Definition name_key_eqb (a b : shape_name) : bool :=
    match a, b with
    | Qualified x, Qualified y => sid_key_eqb x y
    | Local x, Local y => ident_key_eqb x y
    | _, _ => false
    end.

  (** [insert], builder/mod.rs:215-221; [simple_shape], [list], ..., [reference], 123-197 call it with
      the builder's own name. *)
  Definition bd_insert (b : builder) (s : shape_builder) : builder :=
    Builder (bd_namespace b) (bd_version b) (bd_metadata b) (hm_insert name_key_eqb (sb_name s) s (bd_shapes b)).
  (** [meta_data], builder/mod.rs:200-203. *)
  Definition bd_metadata_insert (b : builder) (k : str) (v : value) : builder :=
    Builder (bd_namespace b) (bd_version b) (hm_insert str_eqb k v (bd_metadata b)) (bd_shapes b).
  (** [uses], builder/mod.rs:181-183. *)
  Definition bd_uses (b : builder) (id : str) : result builder := r <- reference_new id ;; Ok (bd_insert b r).

  (** [reference_names], builder/mod.rs:223-228, filtered as in 271-274. *)
  Definition matching_references (b : builder) (n : str) : list shape_name :=
    filter (fun k => ident_eqb (name_of k) n) (map fst (filter (fun e => is_reference (snd e)) (bd_shapes b))).

  (** [resolve_shape_name], builder/mod.rs:246-315. *)
  Definition resolve_shape_name (b : builder) (name : shape_name) (is_trait : bool) : result (shape_id * bool) :=
    match name with
    | Qualified q => if sid_is_member q then Err (EShapeIDExpected q) else Ok (q, false)
    | Local n =>
        match matching_references b n with
        | [Qualified q] => Ok (q, false)
        | [Local _] => Panic
        | [] =>
            if hm_contains name_key_eqb name (bd_shapes b) then Ok (ns_make_shape (bd_namespace b) n, false)
            else if (negb is_trait && contains_str prelude_shapes n) || (is_trait && contains_str prelude_traits n)
            then Ok (ns_make_shape prelude_ns n, false)
            else Ok (ns_make_shape (bd_namespace b) n, true)
        | _ => Err (EAmbiguousShape n)
        end
    end.

  (** ** [apply] *)

  (** The first element satisfying [p] changed by [f] ([iter_mut().find(p)]), if any. *)
  Fixpoint update_first {A} (p : A -> bool) (f : A -> A) (l : list A) : option (list A) :=
    match l with
    | [] => None
    | x :: l' => if p x then Some (f x :: l') else option_map (cons x) (update_first p f l')
    end.
  (** [apply_to_member], builder/mod.rs:725-787: [None] is the panic at 785. *)
  Definition apply_to_member (s : shape_builder) (m : str) (t : trait_builder) : option shape_builder :=
    let body :=
      match sb_body s with
      | BList mb => if str_eqb m (lit "member") then Some (BList (mb_apply mb t)) else None
      | BSet mb => if str_eqb m (lit "member") then Some (BSet (mb_apply mb t)) else None
      | BMap k v =>
          if str_eqb m (lit "key") then Some (BMap (mb_apply k t) v)
          else if str_eqb m (lit "value") then Some (BMap k (mb_apply v t)) else None
      | BStructure ms => option_map BStructure (update_first (fun x => ident_eqb (mb_name x) m) (fun x => mb_apply x t) ms)
      | BUnion ms => option_map BUnion (update_first (fun x => ident_eqb (mb_name x) m) (fun x => mb_apply x t) ms)
      | _ => None
      end in
    option_map (SB (sb_name s) (sb_traits s)) body.
  (** [shapes.get_mut(k)] followed by an update. *)
  Definition bd_update (b : builder) (k : shape_name) (s : shape_builder) : builder :=
    Builder (bd_namespace b) (bd_version b) (bd_metadata b) (hm_update name_key_eqb k (fun _ => s) (bd_shapes b)).
  (** [apply_to], builder/mod.rs:317-348: the branch for qualified names, with [apply_to_shape], 789-822,
      which is [apply_trait] in every case; then the whole. *)
  Definition apply_to_qualified (b : builder) (id : shape_id) (t : trait_builder) : result builder :=
    match sid_member id with
    | Some m =>
        let parent := Qualified (sid_shape_only id) in
        match hm_get name_key_eqb parent (bd_shapes b) with
        | Some s => match apply_to_member s m t with Some s' => Ok (bd_update b parent s') | None => Panic end
        | None => Panic
        end
    | None =>
        match hm_get name_key_eqb (Qualified id) (bd_shapes b) with
        | Some s => Ok (bd_update b (Qualified id) (sb_apply s t))
        | None => Ok (bd_insert b (sb_apply (SB (Qualified id) [] BReference) t))
        end
    end.
  Definition apply_to (b : builder) (name : shape_name) (t : trait_builder) : result builder :=
    match name with
    | Qualified id => apply_to_qualified b id t
    | Local n =>
        r <- unwrap (resolve_shape_name b (Local n) false) ;;
        let (id, fresh) := r in
        apply_to_qualified (if fresh then bd_insert b (SB (Qualified id) [] BReference) else b) id t
    end.
  (** [apply], builder/mod.rs:188-191. *)
  Definition bd_apply (b : builder) (shape : str) (t : trait_builder) : result builder :=
    n <- unwrap (shape_name_from_str shape) ;; apply_to b n t.

  (** ** Building *)

  (** The [HashSet<ShapeID>] of new references, threaded through; [HashSet::insert] keeps the old
      element. *)
  Definition refs := list shape_id.
  Definition add_ref (id : shape_id) (rs : refs) : refs :=
    if existsb (fun x => sid_key_eqb x id) rs then rs else rs ++ [id].
  Definition making (A : Type) := refs -> result (A * refs).
  Definition give {A} (a : A) : making A := fun rs => Ok (a, rs).
  Definition and_then {A B} (m : making A) (f : A -> making B) : making B :=
    fun rs => match m rs with Ok (a, rs') => f a rs' | Err e => Err e | Panic => Panic end.
  Notation "x <~ m ;; k" := (and_then m (fun x => k)) (at level 61, m at next level, right associativity).
  Fixpoint each {A B} (f : A -> making B) (l : list A) : making (list B) :=
    match l with
    | [] => give []
    | a :: l' => x <~ f a ;; xs <~ each f l' ;; give (x :: xs)
    end.
  Definition maybe {A B} (f : A -> making B) (o : option A) : making (option B) :=
    match o with None => give None | Some a => x <~ f a ;; give (Some x) end.
  Definition assert_or_panic (c : bool) : making unit := fun rs => if c then Ok (tt, rs) else Panic.

  Section Make.
    Variable b : builder.
    (** [resolve_shape_name] followed by [if new_reference { references.insert(..) }]. *)
    Definition resolve (is_trait : bool) (n : shape_name) : making shape_id :=
      fun rs =>
        match resolve_shape_name b n is_trait with
        | Ok (id, fresh) => Ok (id, if fresh then add_ref id rs else rs)
        | Err e => Err e
        | Panic => Panic
        end.
    (** [make_traits], builder/mod.rs:698-718. *)
    Definition make_traits (l : list trait_builder) : making traits :=
      ps <~ each (fun t => i <~ resolve true (tb_id t) ;; give (i, tb_value t)) l ;;
      give (hm_from_list sid_key_eqb ps).
    (** [MemberShape::with_traits] of a target already resolved. *)
    Definition make_member (m : member_builder) (target : shape_id) : making member_shape :=
      ts <~ make_traits (mb_traits m) ;; give (MS (mb_name m) ts target).
    (** [make_structure_inner], builder/mod.rs:471-493. *)
    Definition make_members (l : list member_builder) : making members :=
      ms <~ each (fun m => t <~ resolve false (mb_target m) ;; make_member m t) l ;;
      give (su_with_members ms).
    (** [ListOrSet::from], aggregate.rs:109-112, panics unless the member is called "member";
        [make_list], builder/mod.rs:387-409; [make_set], 411-433, which makes a list. *)
    Definition make_list_member (m : member_builder) (target : shape_id) : making member_shape :=
      x <~ make_member m target ;; _ <~ assert_or_panic (str_eqb (ms_id x) (lit "member")) ;; give x.
    Definition make_body (bb : builder_body) : making shape_kind :=
      match bb with
      | BSimple s => give (KSimple s)
      | BList m => t <~ resolve false (mb_target m) ;; x <~ make_list_member m t ;; give (KList x)
      | BSet m => t <~ resolve false (mb_target m) ;; x <~ make_list_member m t ;; give (KList x)
      (* [make_map], 435-469: both targets first *)
      | BMap k v =>
          kt <~ resolve false (mb_target k) ;; vt <~ resolve false (mb_target v) ;;
          km <~ make_member k kt ;; vm <~ make_member v vt ;; give (KMap km vm)
      (* [make_structure], 495-509, and [make_union], 511-525 *)
      | BStructure ms => x <~ make_members ms ;; give (KStructure x)
      | BUnion ms => x <~ make_members ms ;; give (KUnion x)
      (* [make_service], 527-559; [Service::new] panics on an empty version *)
      | BService s =>
          _ <~ assert_or_panic (negb (str_eqb (svb_version s) [])) ;;
          ops <~ each (resolve false) (svb_operations s) ;;
          rs <~ each (resolve false) (svb_resources s) ;;
          give (KService (Service (svb_version s) ops rs (hm_from_list sid_key_eqb (svb_renames s))))
      (* [make_operation], 561-597 *)
      | BOperation o =>
          i <~ maybe (resolve false) (opb_input o) ;;
          u <~ maybe (resolve false) (opb_output o) ;;
          es <~ each (resolve false) (opb_errors o) ;;
          give (KOperation (Operation i u es))
      (* [make_resource], 599-684 *)
      | BResource r =>
          ids <~ each (fun e => i <~ resolve false (snd e) ;; give (fst e, i)) (rsb_identifiers r) ;;
          c <~ maybe (resolve false) (rsb_create r) ;;
          p <~ maybe (resolve false) (rsb_put r) ;;
          g <~ maybe (resolve false) (rsb_read r) ;;
          u <~ maybe (resolve false) (rsb_update r) ;;
          d <~ maybe (resolve false) (rsb_delete r) ;;
          l <~ maybe (resolve false) (rsb_list r) ;;
          ops <~ each (resolve false) (rsb_operations r) ;;
          cops <~ each (resolve false) (rsb_collection_operations r) ;;
          rs <~ each (resolve false) (rsb_resources r) ;;
          give (KResource (Resource (hm_from_list ident_key_eqb ids) c p g u d l ops cops rs))
      | BReference => give KUnresolved
      end.
    (** The id a builder makes its shape under: resolved like any other name, except in
        [make_reference], 686-696. *)
    Definition make_id (s : shape_builder) : making shape_id :=
      match sb_body s with
      | BReference => match sb_name s with Qualified i => give i | Local _ => fun _ => Panic end
      | _ => resolve false (sb_name s)
      end.
    (** [make_shape], builder/mod.rs:350-369, with the common frame of the [make_*] functions. *)
    Definition make_shape (s : shape_builder) : making shape :=
      id <~ make_id s ;; k <~ make_body (sb_body s) ;; ts <~ make_traits (sb_traits s) ;; give (Shape id ts k).
    (** The loop of [TryFrom], builder/mod.rs:91-93; what [add_shape] returns is ignored, but a panic
        is not. *)
    Fixpoint make_shapes (m : model) (l : list (shape_name * shape_builder)) : making model :=
      match l with
      | [] => give m
      | (_, s) :: l' =>
          sh <~ make_shape s ;;
          match add_shape m sh with
          | (_, Panic) => fun _ => Panic
          | (m', _) => make_shapes m' l'
          end
      end.
  End Make.
  (** The loop at 94-96. *)
  Fixpoint add_unresolved (m : model) (ids : list shape_id) : result model :=
    match ids with
    | [] => Ok m
    | id :: ids' =>
        match add_shape m (Shape id [] KUnresolved) with
        | (_, Panic) => Panic
        | (m', _) => add_unresolved m' ids'
        end
    end.
  (** [TryFrom<&mut ModelBuilder> for Model], builder/mod.rs:83-100. *)
  Definition build (b : builder) : result model :=
    let m0 := fold_left (fun m kv => fst (add_metadata m (fst kv) (snd kv))) (bd_metadata b) (model_new (bd_version b)) in
    match make_shapes b m0 (bd_shapes b) [] with
    | Ok (m, rs) => add_unresolved m rs
    | Err e => Err e
    | Panic => Panic
    end.
End WithHasher.
