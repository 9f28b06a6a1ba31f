(** Model of the fluent interfaces of atelier-core/src/builder/shapes.rs, traits.rs and values.rs. Methods
    return [&mut Self]; a chain of calls is a function on the builder, a panic ends it. *)
From Verif.Model Require Export Builder.

(** [ShapeName::from_str(x).unwrap()]. *)
Definition parse_name (s : str) : result shape_name := unwrap (shape_name_from_str s).
(** [for x in xs { let _ = self.f(x); }]. *)
Fixpoint each {A B} (f : B -> A -> result B) (b : B) (l : list A) : result B :=
  match l with [] => Ok b | x :: l' => b' <- f b x ;; each f b' l' end.

(** ** Members *)
(** [SHAPE_BLOB], ..., [SHAPE_TIMESTAMP], prelude.rs:184-296. *)
Definition shape_const (s : simple) : string :=
  match s with
  | SBlob => "Blob" | SBoolean => "Boolean" | SDocument => "Document" | SString => "String" | SByte => "Byte"
  | SShort => "Short" | SInteger => "Integer" | SLong => "Long" | SFloat => "Float" | SDouble => "Double"
  | SBigInteger => "BigInteger" | SBigDecimal => "BigDecimal" | STimestamp => "Timestamp"
  end.
(** [MemberBuilder::with_target], shapes.rs:781-787. *)
Definition member_with_target (name : str) (t : shape_name) : result member_builder :=
  n <- unwrap (ident_from_str name) ;; Ok (MB n [] t).
(** [new_unchecked], 789-799, as [blob], [boolean], ..., 811-874, call it. *)
Definition member_simple (name : str) (s : simple) : result member_builder :=
  n <- unwrap (ident_from_str name) ;; Ok (MB n [] (Qualified (SID prelude_ns (shape_const s) None))).

(** ** Lists, maps, structures (and unions): the methods are only offered by the builder with that body *)
(** [ListBuilder::with_target], 339-345; [target], 348-350. *)
Definition list_with_target (name : str) (t : shape_name) : result shape_builder :=
  n <- parse_name name ;; m <- member_with_target (lit "member") t ;; Ok (SB n [] (BList m)).
Definition list_target (b : shape_builder) (m : member_builder) : shape_builder :=
  match sb_body b with
  | BList _ => SB (sb_name b) (sb_traits b) (BList m)
  | BSet _ => SB (sb_name b) (sb_traits b) (BSet m)
  | _ => b
  end.
(** [MapBuilder::key], 377-379; [value], 382-384. *)
Definition map_key (b : shape_builder) (m : member_builder) : shape_builder :=
  match sb_body b with BMap _ v => SB (sb_name b) (sb_traits b) (BMap m v) | _ => b end.
Definition map_value (b : shape_builder) (m : member_builder) : shape_builder :=
  match sb_body b with BMap k _ => SB (sb_name b) (sb_traits b) (BMap k m) | _ => b end.
(** [StructureBuilder::add_member], 410-413; [blob], [boolean], ..., 416-478. *)
Definition structure_add_member (b : shape_builder) (m : member_builder) : shape_builder :=
  match sb_body b with
  | BStructure ms => SB (sb_name b) (sb_traits b) (BStructure (ms ++ [m]))
  | BUnion ms => SB (sb_name b) (sb_traits b) (BUnion (ms ++ [m]))
  | _ => b
  end.
Definition structure_simple (b : shape_builder) (id : str) (s : simple) : result shape_builder :=
  structure_member b id (shape_const s).
(** [ModelBuilder::set], builder/mod.rs:135-140, and [union], 156-161: the same builder, another variant. *)
Definition as_set (b : shape_builder) : shape_builder :=
  match sb_body b with BList m => SB (sb_name b) (sb_traits b) (BSet m) | _ => b end.
Definition as_union (b : shape_builder) : shape_builder :=
  match sb_body b with BStructure m => SB (sb_name b) (sb_traits b) (BUnion m) | _ => b end.

(** ** Services *)
(** [ServiceBuilder::new], 494-503. *)
Definition service_new (name version : str) : result shape_builder :=
  n <- parse_name name ;; Ok (SB n [] (BService (SvB version [] [] []))).
Definition on_service (b : shape_builder) (f : service_builder -> result service_builder) : result shape_builder :=
  match sb_body b with
  | BService s => s' <- f s ;; Ok (SB (sb_name b) (sb_traits b) (BService s'))
  | _ => Ok b
  end.
(** [version], 506-509; [operation], 512-515; [operations], 518-523; [resource], 526-529; [resources], 532-537. *)
Definition service_version (b : shape_builder) (v : str) : result shape_builder :=
  on_service b (fun s => Ok (SvB v (svb_operations s) (svb_resources s) (svb_renames s))).
Definition service_operation (b : shape_builder) (id : str) : result shape_builder :=
  on_service b (fun s => n <- parse_name id ;; Ok (SvB (svb_version s) (svb_operations s ++ [n]) (svb_resources s) (svb_renames s))).
Definition service_operations (b : shape_builder) (ids : list str) : result shape_builder := each service_operation b ids.
Definition service_resource (b : shape_builder) (id : str) : result shape_builder :=
  on_service b (fun s => n <- parse_name id ;; Ok (SvB (svb_version s) (svb_operations s) (svb_resources s ++ [n]) (svb_renames s))).
Definition service_resources (b : shape_builder) (ids : list str) : result shape_builder := each service_resource b ids.
(** [rename], 540-546. *)
Definition service_rename `{Hasher} (b : shape_builder) (id name : str) : result shape_builder :=
  on_service b (fun s => i <- unwrap (sid_from_str id) ;; n <- unwrap (ident_from_str name) ;;
    Ok (SvB (svb_version s) (svb_operations s) (svb_resources s) (hm_insert sid_key_eqb i n (svb_renames s)))).

(** ** Operations *)
(** [OperationBuilder::new], 566-574; [input], 577-580; [output], 583-586; [error], 589-592; [errors], 595-600. *)
Definition operation_new (name : str) : result shape_builder :=
  n <- parse_name name ;; Ok (SB n [] (BOperation (OpB None None []))).
Definition on_operation (b : shape_builder) (f : operation_builder -> result operation_builder) : result shape_builder :=
  match sb_body b with
  | BOperation o => o' <- f o ;; Ok (SB (sb_name b) (sb_traits b) (BOperation o'))
  | _ => Ok b
  end.
Definition operation_input (b : shape_builder) (id : str) : result shape_builder :=
  on_operation b (fun o => n <- parse_name id ;; Ok (OpB (Some n) (opb_output o) (opb_errors o))).
Definition operation_output (b : shape_builder) (id : str) : result shape_builder :=
  on_operation b (fun o => n <- parse_name id ;; Ok (OpB (opb_input o) (Some n) (opb_errors o))).
Definition operation_error (b : shape_builder) (id : str) : result shape_builder :=
  on_operation b (fun o => n <- parse_name id ;; Ok (OpB (opb_input o) (opb_output o) (opb_errors o ++ [n]))).
Definition operation_errors (b : shape_builder) (ids : list str) : result shape_builder := each operation_error b ids.

(** ** Resources *)
(** [ResourceBuilder::new], 624-639. *)
Definition resource_new (name : str) : result shape_builder :=
  n <- parse_name name ;; Ok (SB n [] (BResource (RsB [] None None None None None None [] [] []))).
Definition on_resource (b : shape_builder) (f : resource_builder -> result resource_builder) : result shape_builder :=
  match sb_body b with
  | BResource r => r' <- f r ;; Ok (SB (sb_name b) (sb_traits b) (BResource r'))
  | _ => Ok b
  end.
(** [identifier], 643-649. *)
Definition resource_identifier `{Hasher} (b : shape_builder) (id target : str) : result shape_builder :=
  on_resource b (fun r => i <- unwrap (ident_from_str id) ;; n <- parse_name target ;;
    Ok (RsB (hm_insert ident_key_eqb i n (rsb_identifiers r)) (rsb_create r) (rsb_put r) (rsb_read r) (rsb_update r)
            (rsb_delete r) (rsb_list r) (rsb_operations r) (rsb_collection_operations r) (rsb_resources r))).
(** [create], 652-655; [put], 658-661; [read], 664-667; [update], 670-673; [delete], 676-679; [list], 682-685. *)
Definition resource_create (b : shape_builder) (id : str) : result shape_builder :=
  on_resource b (fun r => n <- parse_name id ;;
    Ok (RsB (rsb_identifiers r) (Some n) (rsb_put r) (rsb_read r) (rsb_update r)
            (rsb_delete r) (rsb_list r) (rsb_operations r) (rsb_collection_operations r) (rsb_resources r))).
Definition resource_put (b : shape_builder) (id : str) : result shape_builder :=
  on_resource b (fun r => n <- parse_name id ;;
    Ok (RsB (rsb_identifiers r) (rsb_create r) (Some n) (rsb_read r) (rsb_update r)
            (rsb_delete r) (rsb_list r) (rsb_operations r) (rsb_collection_operations r) (rsb_resources r))).
Definition resource_read (b : shape_builder) (id : str) : result shape_builder :=
  on_resource b (fun r => n <- parse_name id ;;
    Ok (RsB (rsb_identifiers r) (rsb_create r) (rsb_put r) (Some n) (rsb_update r)
            (rsb_delete r) (rsb_list r) (rsb_operations r) (rsb_collection_operations r) (rsb_resources r))).
Definition resource_update (b : shape_builder) (id : str) : result shape_builder :=
  on_resource b (fun r => n <- parse_name id ;;
    Ok (RsB (rsb_identifiers r) (rsb_create r) (rsb_put r) (rsb_read r) (Some n)
            (rsb_delete r) (rsb_list r) (rsb_operations r) (rsb_collection_operations r) (rsb_resources r))).
Definition resource_delete (b : shape_builder) (id : str) : result shape_builder :=
  on_resource b (fun r => n <- parse_name id ;;
    Ok (RsB (rsb_identifiers r) (rsb_create r) (rsb_put r) (rsb_read r) (rsb_update r)
            (Some n) (rsb_list r) (rsb_operations r) (rsb_collection_operations r) (rsb_resources r))).
Definition resource_list (b : shape_builder) (id : str) : result shape_builder :=
  on_resource b (fun r => n <- parse_name id ;;
    Ok (RsB (rsb_identifiers r) (rsb_create r) (rsb_put r) (rsb_read r) (rsb_update r)
            (rsb_delete r) (Some n) (rsb_operations r) (rsb_collection_operations r) (rsb_resources r))).
(** [operation(s)], 688-699; [collection_operation(s)], 702-714; [resource(s)], 717-728. *)
Definition resource_operation (b : shape_builder) (id : str) : result shape_builder :=
  on_resource b (fun r => n <- parse_name id ;;
    Ok (RsB (rsb_identifiers r) (rsb_create r) (rsb_put r) (rsb_read r) (rsb_update r)
            (rsb_delete r) (rsb_list r) (rsb_operations r ++ [n]) (rsb_collection_operations r) (rsb_resources r))).
Definition resource_operations (b : shape_builder) (ids : list str) : result shape_builder := each resource_operation b ids.
Definition resource_collection_operation (b : shape_builder) (id : str) : result shape_builder :=
  on_resource b (fun r => n <- parse_name id ;;
    Ok (RsB (rsb_identifiers r) (rsb_create r) (rsb_put r) (rsb_read r) (rsb_update r)
            (rsb_delete r) (rsb_list r) (rsb_operations r) (rsb_collection_operations r ++ [n]) (rsb_resources r))).
Definition resource_collection_operations (b : shape_builder) (ids : list str) : result shape_builder :=
  each resource_collection_operation b ids.
Definition resource_resource (b : shape_builder) (id : str) : result shape_builder :=
  on_resource b (fun r => n <- parse_name id ;;
    Ok (RsB (rsb_identifiers r) (rsb_create r) (rsb_put r) (rsb_read r) (rsb_update r)
            (rsb_delete r) (rsb_list r) (rsb_operations r) (rsb_collection_operations r) (rsb_resources r ++ [n]))).
Definition resource_resources (b : shape_builder) (ids : list str) : result shape_builder := each resource_resource b ids.

(** ** Values: [ObjectBuilder], values.rs:97-147 ([string], [integer]; the map [inner]) *)
Definition ob_insert (o : list (str * value)) (k : string) (v : value) : list (str * value) := hm_insert str_eqb (lit k) v o.
Definition ob_string (o : list (str * value)) (k : string) (v : str) : list (str * value) := ob_insert o k (VString v).
Definition ob_integer (o : list (str * value)) (k : string) (v : Z) : list (str * value) := ob_insert o k (VNumber (NInteger v)).
(** [usize as i64] on a 64-bit target: two's complement. *)
Definition usize_as_i64 (n : Z) : Z := if (n <=? 0x7FFFFFFFFFFFFFFF)%Z then n else (n - 0x10000000000000000)%Z.

(** ** The traits of the prelude, traits.rs:47-243 *)
Inductive error_source := Client | Server.
(** [Display for ErrorSource], traits.rs:249-260. *)
Definition error_source_str (e : error_source) : str := match e with Client => "client" | Server => "server" end.
(** [FromStr], 262-272. *)
Definition error_source_from_str (s : str) : result error_source :=
  if str_eqb s (lit "client") then Ok Client
  else if str_eqb s (lit "server") then Ok Server
  else Err (EInvalidTraitValue (lit "error")).
(** [prelude_name], 353-359. *)
Definition prelude_name (n : string) : str := prelude_ns ++ lit "#" ++ lit n.
(** [TraitBuilder::with_value], 293-298, and [annotation], 285-290, of a prelude trait. *)
Definition with_value (n : string) (v : value) : result trait_builder := trait_new (prelude_name n) (Some v).
Definition annotation (n : string) : result trait_builder := trait_annotation (prelude_name n).
(** [assert!]; [is_some]; [!is_empty()]; the [if let Some(x) = x { values.string(k, x) }] of several constructors. *)
Definition assert_true (b : bool) : result unit := if b then Ok tt else Panic.
Definition is_some {A} (o : option A) : bool := match o with Some _ => true | None => false end.
Definition not_empty (s : str) : bool := match s with [] => false | _ => true end.
Definition opt_string (o : list (str * value)) (k : string) (v : option str) : list (str * value) :=
  match v with Some v => ob_string o k v | None => o end.
Definition opt_integer (o : list (str * value)) (k : string) (v : option Z) : list (str * value) :=
  match v with Some v => ob_integer o k (usize_as_i64 v) | None => o end.

(** [boxed], traits.rs:47-49. *)
Definition tr_boxed := annotation "box".
(** [deprecated], traits.rs:52-61. *)
Definition tr_deprecated (message since : option str) : result trait_builder :=
  with_value "deprecated" (VObject (opt_string (opt_string [] "message" message) "since" since)).
(** [documentation], traits.rs:64-66. *)
Definition tr_documentation (v : str) : result trait_builder := with_value "documentation" (VString v).
(** [error_source], traits.rs:69-71. *)
Definition tr_error_source (e : error_source) : result trait_builder := with_value "error" (VString (error_source_str e)).
(** [external_documentation], traits.rs:74-80. *)
Definition tr_external_documentation (m : list (str * str)) : result trait_builder :=
  with_value "externalDocumentation" (VObject (hm_from_list str_eqb (map (fun e => (fst e, VString (snd e))) m))).
(** [idempotent], traits.rs:83-85. *)
Definition tr_idempotent := annotation "idempotent".
(** [length], traits.rs:88-98. *)
Definition tr_length (min max : option Z) : result trait_builder :=
  _ <- assert_true (is_some min || is_some max) ;;
  with_value "length" (VObject (opt_integer (opt_integer [] "min" min) "max" max)).
(** [length_max], traits.rs:101-103. *)
Definition tr_length_max (v : Z) : result trait_builder := tr_length None (Some v).
(** [length_min], traits.rs:106-108. *)
Definition tr_length_min (v : Z) : result trait_builder := tr_length (Some v) None.
(** [no_replace], traits.rs:111-113. *)
Definition tr_no_replace := annotation "noReplace".
(** [paginated], traits.rs:116-136. *)
Definition tr_paginated (input_token output_token items page_size : option str) : result trait_builder :=
  with_value "paginated" (VObject (opt_string (opt_string (opt_string (opt_string [] "inputToken" input_token)
    "outputToken" output_token) "items" items) "pageSize" page_size)).
(** [pattern], traits.rs:139-142. *)
Definition tr_pattern (p : str) : result trait_builder :=
  _ <- assert_true (not_empty p) ;; with_value "pattern" (VString p).
(** [private], traits.rs:145-147. *)
Definition tr_private := annotation "private".
(** [range], traits.rs:150-160. *)
Definition tr_range (min max : option Z) : result trait_builder :=
  _ <- assert_true (is_some min || is_some max) ;;
  with_value "range" (VObject (opt_integer (opt_integer [] "min" min) "max" max)).
(** [range_max], traits.rs:163-165. *)
Definition tr_range_max (v : Z) : result trait_builder := tr_range None (Some v).
(** [range_min], traits.rs:168-170. *)
Definition tr_range_min (v : Z) : result trait_builder := tr_range (Some v) None.
(** [readonly], traits.rs:173-175. *)
Definition tr_readonly := annotation "readonly".
(** [references], traits.rs:178-188. *)
Definition tr_references (v : value) : result trait_builder :=
  match v with VArray _ => with_value "references" v | _ => Panic end.
(** [required], traits.rs:191-193. *)
Definition tr_required := annotation "required".
(** [requires_length], traits.rs:196-198. *)
Definition tr_requires_length := annotation "requiresLength".
(** [sensitive], traits.rs:201-203. *)
Definition tr_sensitive := annotation "sensitive".
(** [streaming], traits.rs:206-208. *)
Definition tr_streaming := annotation "streaming".
(** [since], traits.rs:211-214. *)
Definition tr_since (d : str) : result trait_builder := _ <- assert_true (not_empty d) ;; with_value "since" (VString d).
(** [tagged], traits.rs:217-222. *)
Definition tr_tagged (tags : list str) : result trait_builder := with_value "tags" (VArray (map VString tags)).
(** [title], traits.rs:225-227. *)
Definition tr_title (t : str) : result trait_builder := with_value "title" (VString t).
(** [a_trait], traits.rs:230-232. *)
Definition tr_a_trait := trait_new (prelude_name "trait") None.
(** [unique_items], traits.rs:235-237. *)
Definition tr_unique_items := annotation "uniqueItems".
(** [unstable], traits.rs:240-242. *)
Definition tr_unstable := trait_new (prelude_name "unstable") None.
(** The setters [array], ..., [value], traits.rs:303-346, all end in [value]. *)
Definition tb_set_value (t : trait_builder) (v : value) : trait_builder := TB (tb_id t) (Some v).
