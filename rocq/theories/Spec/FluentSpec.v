(** What chains of calls on the builders of shapes mean. *)
From Verif.Model Require Import Fluent.
From Verif.Spec Require Export BuilderSpec IdentitySpec.

(** The text [s] is the name [n]: an absolute id or an identifier. *)
Definition names (s : str) (n : shape_name) : Prop :=
  match n with
  | Qualified i => valid_id i /\ s = id_text i
  | Local x => is_identifier x /\ s = x
  end.
Definition is_name (s : str) : Prop := exists n, names s n.
Definition is_id (s : str) : Prop := exists i, valid_id i /\ s = id_text i.

(** The last element of a list. *)
Definition latest {A} (l : list A) : option A := match rev l with x :: _ => Some x | [] => None end.

(** ** Services *)
Inductive service_call :=
| SvVersion (v : str) | SvOperation (id : str) | SvOperations (ids : list str)
| SvResource (id : str) | SvResources (ids : list str) | SvRename (id name : str) | SvTrait (t : trait_builder).
Definition service_step `{Hasher} (b : shape_builder) (c : service_call) : result shape_builder :=
  match c with
  | SvVersion v => service_version b v
  | SvOperation id => service_operation b id
  | SvOperations ids => service_operations b ids
  | SvResource id => service_resource b id
  | SvResources ids => service_resources b ids
  | SvRename id n => service_rename b id n
  | SvTrait t => Ok (sb_apply b t)
  end.
Definition sv_call_ok (c : service_call) : Prop :=
  match c with
  | SvVersion _ | SvTrait _ => True
  | SvOperation id | SvResource id => is_name id
  | SvOperations ids | SvResources ids => Forall is_name ids
  | SvRename id n => is_id id /\ is_identifier n
  end.
Definition sv_versions (cs : list service_call) : list str := flat_map (fun c => match c with SvVersion v => [v] | _ => [] end) cs.
Definition sv_ops (cs : list service_call) : list str :=
  flat_map (fun c => match c with SvOperation x => [x] | SvOperations l => l | _ => [] end) cs.
Definition sv_ress (cs : list service_call) : list str :=
  flat_map (fun c => match c with SvResource x => [x] | SvResources l => l | _ => [] end) cs.
Definition sv_renamed (cs : list service_call) : list (str * str) := flat_map (fun c => match c with SvRename i n => [(i, n)] | _ => [] end) cs.
Definition sv_traits (cs : list service_call) : list trait_builder := flat_map (fun c => match c with SvTrait t => [t] | _ => [] end) cs.

(** ** Operations *)
Inductive operation_call := OpInput (id : str) | OpOutput (id : str) | OpError (id : str) | OpErrors (ids : list str) | OpTrait (t : trait_builder).
Definition operation_step (b : shape_builder) (c : operation_call) : result shape_builder :=
  match c with
  | OpInput id => operation_input b id
  | OpOutput id => operation_output b id
  | OpError id => operation_error b id
  | OpErrors ids => operation_errors b ids
  | OpTrait t => Ok (sb_apply b t)
  end.
Definition op_call_ok (c : operation_call) : Prop :=
  match c with OpInput id | OpOutput id | OpError id => is_name id | OpErrors ids => Forall is_name ids | OpTrait _ => True end.
Definition op_inputs (cs : list operation_call) : list str := flat_map (fun c => match c with OpInput x => [x] | _ => [] end) cs.
Definition op_outputs (cs : list operation_call) : list str := flat_map (fun c => match c with OpOutput x => [x] | _ => [] end) cs.
Definition op_errs (cs : list operation_call) : list str := flat_map (fun c => match c with OpError x => [x] | OpErrors l => l | _ => [] end) cs.
Definition op_traits (cs : list operation_call) : list trait_builder := flat_map (fun c => match c with OpTrait t => [t] | _ => [] end) cs.

(** ** Resources *)
Inductive lifecycle := LCreate | LPut | LRead | LUpdate | LDelete | LList.
Inductive group := GOperations | GCollectionOperations | GResources.
Inductive resource_call :=
| RsLifecycle (a : lifecycle) (id : str) | RsOne (g : group) (id : str) | RsMany (g : group) (ids : list str)
| RsIdentifier (name target : str) | RsTrait (t : trait_builder).
Definition resource_step `{Hasher} (b : shape_builder) (c : resource_call) : result shape_builder :=
  match c with
  | RsLifecycle LCreate id => resource_create b id
  | RsLifecycle LPut id => resource_put b id
  | RsLifecycle LRead id => resource_read b id
  | RsLifecycle LUpdate id => resource_update b id
  | RsLifecycle LDelete id => resource_delete b id
  | RsLifecycle LList id => resource_list b id
  | RsOne GOperations id => resource_operation b id
  | RsOne GCollectionOperations id => resource_collection_operation b id
  | RsOne GResources id => resource_resource b id
  | RsMany GOperations ids => resource_operations b ids
  | RsMany GCollectionOperations ids => resource_collection_operations b ids
  | RsMany GResources ids => resource_resources b ids
  | RsIdentifier n t => resource_identifier b n t
  | RsTrait t => Ok (sb_apply b t)
  end.
Definition rs_call_ok (c : resource_call) : Prop :=
  match c with
  | RsLifecycle _ id | RsOne _ id => is_name id
  | RsMany _ ids => Forall is_name ids
  | RsIdentifier n t => is_identifier n /\ is_name t
  | RsTrait _ => True
  end.
Definition lifecycle_eq (a b : lifecycle) : bool :=
  match a, b with
  | LCreate, LCreate | LPut, LPut | LRead, LRead | LUpdate, LUpdate | LDelete, LDelete | LList, LList => true
  | _, _ => false
  end.
Definition group_eq (a b : group) : bool :=
  match a, b with
  | GOperations, GOperations | GCollectionOperations, GCollectionOperations | GResources, GResources => true
  | _, _ => false
  end.
Definition rs_lifecycle (a : lifecycle) (cs : list resource_call) : list str :=
  flat_map (fun c => match c with RsLifecycle a' x => if lifecycle_eq a a' then [x] else [] | _ => [] end) cs.
Definition rs_group (g : group) (cs : list resource_call) : list str :=
  flat_map (fun c => match c with
                     | RsOne g' x => if group_eq g g' then [x] else []
                     | RsMany g' l => if group_eq g g' then l else []
                     | _ => []
                     end) cs.
Definition rs_idents (cs : list resource_call) : list (str * str) := flat_map (fun c => match c with RsIdentifier n t => [(n, t)] | _ => [] end) cs.
Definition rs_traits (cs : list resource_call) : list trait_builder := flat_map (fun c => match c with RsTrait t => [t] | _ => [] end) cs.
Definition lifecycle_of (a : lifecycle) (r : resource_builder) : option shape_name :=
  match a with
  | LCreate => rsb_create r | LPut => rsb_put r | LRead => rsb_read r
  | LUpdate => rsb_update r | LDelete => rsb_delete r | LList => rsb_list r
  end.
Definition group_of (g : group) (r : resource_builder) : list shape_name :=
  match g with
  | GOperations => rsb_operations r
  | GCollectionOperations => rsb_collection_operations r
  | GResources => rsb_resources r
  end.

(** ** Structures and unions *)
Inductive structure_call :=
| StMember (name target : str) | StSimple (name : str) (s : simple) | StAdd (m : member_builder) | StTrait (t : trait_builder).
Definition structure_step (b : shape_builder) (c : structure_call) : result shape_builder :=
  match c with
  | StMember n t => structure_member b n t
  | StSimple n s => structure_simple b n s
  | StAdd m => Ok (structure_add_member b m)
  | StTrait t => Ok (sb_apply b t)
  end.
Definition st_call_ok (c : structure_call) : Prop :=
  match c with StMember n t => is_identifier n /\ is_name t | StSimple n _ => is_identifier n | StAdd _ | StTrait _ => True end.
(** The name of the prelude shape of a simple type. *)
Definition simple_shape_name (s : simple) : string :=
  match s with
  | SBlob => "Blob" | SBoolean => "Boolean" | SDocument => "Document" | SString => "String" | SByte => "Byte"
  | SShort => "Short" | SInteger => "Integer" | SLong => "Long" | SFloat => "Float" | SDouble => "Double"
  | SBigInteger => "BigInteger" | SBigDecimal => "BigDecimal" | STimestamp => "Timestamp"
  end.
(** The members that calls add, in order; those added by name have no traits. *)
Inductive st_adds : list structure_call -> list member_builder -> Prop :=
| sa_nil : st_adds [] []
| sa_member n t tn cs ms : names t tn -> st_adds cs ms -> st_adds (StMember n t :: cs) (MB n [] tn :: ms)
| sa_simple n s cs ms : st_adds cs ms -> st_adds (StSimple n s :: cs) (MB n [] (Local (simple_shape_name s)) :: ms)
| sa_add m cs ms : st_adds cs ms -> st_adds (StAdd m :: cs) (m :: ms)
| sa_trait t cs ms : st_adds cs ms -> st_adds (StTrait t :: cs) ms.
Definition st_traits (cs : list structure_call) : list trait_builder := flat_map (fun c => match c with StTrait t => [t] | _ => [] end) cs.

(** A chain: the constructor, then the calls. *)
Fixpoint chain {C} (step : shape_builder -> C -> result shape_builder) (b : shape_builder) (cs : list C) : result shape_builder :=
  match cs with [] => Ok b | c :: cs' => b' <- step b c ;; chain step b' cs' end.

(** ** Traits *)
(** The constructors of the traits of the prelude. *)
Inductive trait_call :=
| TcBoxed | TcDeprecated (message since : option str) | TcDocumentation (v : str) | TcErrorSource (e : error_source)
| TcExternalDocumentation (m : list (str * str)) | TcIdempotent | TcLength (min max : option Z) | TcLengthMax (v : Z) | TcLengthMin (v : Z)
| TcNoReplace | TcPaginated (input_token output_token items page_size : option str) | TcPattern (p : str)
| TcPrivate | TcRange (min max : option Z) | TcRangeMax (v : Z) | TcRangeMin (v : Z) | TcReadonly | TcReferences (v : value)
| TcRequired | TcRequiresLength | TcSensitive | TcStreaming | TcSince (d : str) | TcTagged (tags : list str)
| TcTitle (t : str) | TcTrait | TcUniqueItems | TcUnstable.
Definition make_trait (c : trait_call) : result trait_builder :=
  match c with
  | TcBoxed => tr_boxed | TcDeprecated m s => tr_deprecated m s | TcDocumentation v => tr_documentation v
  | TcErrorSource e => tr_error_source e | TcExternalDocumentation m => tr_external_documentation m
  | TcIdempotent => tr_idempotent | TcLength a b => tr_length a b | TcLengthMax v => tr_length_max v
  | TcLengthMin v => tr_length_min v | TcNoReplace => tr_no_replace | TcPaginated a b c d => tr_paginated a b c d
  | TcPattern p => tr_pattern p | TcPrivate => tr_private | TcRange a b => tr_range a b | TcRangeMax v => tr_range_max v
  | TcRangeMin v => tr_range_min v | TcReadonly => tr_readonly | TcReferences v => tr_references v
  | TcRequired => tr_required | TcRequiresLength => tr_requires_length | TcSensitive => tr_sensitive
  | TcStreaming => tr_streaming | TcSince d => tr_since d | TcTagged l => tr_tagged l | TcTitle t => tr_title t
  | TcTrait => tr_a_trait | TcUniqueItems => tr_unique_items | TcUnstable => tr_unstable
  end.
(** The trait of the Smithy specification each is for. *)
Definition trait_meant (c : trait_call) : string :=
  match c with
  | TcBoxed => "box" | TcDeprecated _ _ => "deprecated" | TcDocumentation _ => "documentation" | TcErrorSource _ => "error"
  | TcExternalDocumentation _ => "externalDocumentation" | TcIdempotent => "idempotent"
  | TcLength _ _ | TcLengthMax _ | TcLengthMin _ => "length" | TcNoReplace => "noReplace" | TcPaginated _ _ _ _ => "paginated"
  | TcPattern _ => "pattern" | TcPrivate => "private" | TcRange _ _ | TcRangeMax _ | TcRangeMin _ => "range"
  | TcReadonly => "readonly" | TcReferences _ => "references" | TcRequired => "required" | TcRequiresLength => "requiresLength"
  | TcSensitive => "sensitive" | TcStreaming => "streaming" | TcSince _ => "since" | TcTagged _ => "tags" | TcTitle _ => "title"
  | TcTrait => "trait" | TcUniqueItems => "uniqueItems" | TcUnstable => "unstable"
  end.
(** When the constructor accepts its arguments; lengths are [usize]. *)
Definition usize (n : Z) : Prop := (0 <= n < 2 ^ 64)%Z.
Definition opt_usize (o : option Z) : Prop := match o with Some n => usize n | None => True end.
Definition arguments_typed (c : trait_call) : Prop :=
  match c with
  | TcLength a b | TcRange a b => opt_usize a /\ opt_usize b
  | TcLengthMax v | TcLengthMin v | TcRangeMax v | TcRangeMin v => usize v
  | _ => True
  end.
Definition accepted (c : trait_call) : Prop :=
  match c with
  | TcLength None None | TcRange None None => False
  | TcPattern s | TcSince s => s <> []
  | TcReferences v => exists l, v = VArray l
  | _ => True
  end.
(** The value that is meant: the entries that are given, and no others. [fits n m]: [m] is the value
    written for [n]. *)
Inductive value_meant (fits : Z -> Z -> Prop) : trait_call -> option value -> Prop :=
| vm_annotation c : In c [TcBoxed; TcIdempotent; TcNoReplace; TcPrivate; TcReadonly; TcRequired; TcRequiresLength; TcSensitive; TcStreaming; TcUniqueItems] ->
    value_meant fits c (Some (VObject []))
| vm_none c : In c [TcTrait; TcUnstable] -> value_meant fits c None
| vm_text c s : In c [TcDocumentation s; TcPattern s; TcSince s; TcTitle s] -> value_meant fits c (Some (VString s))
| vm_client : value_meant fits (TcErrorSource Client) (Some (VString "client"))
| vm_server : value_meant fits (TcErrorSource Server) (Some (VString "server"))
| vm_references v : value_meant fits (TcReferences v) (Some v)
| vm_tags l : value_meant fits (TcTagged l) (Some (VArray (map VString l)))
| vm_deprecated m s o :
    (forall k, hm_get str_eqb k o =
       if str_eqb k (lit "message") then option_map VString m else if str_eqb k (lit "since") then option_map VString s else None) ->
    value_meant fits (TcDeprecated m s) (Some (VObject o))
| vm_paginated i u t p o :
    (forall k, hm_get str_eqb k o =
       if str_eqb k (lit "inputToken") then option_map VString i else if str_eqb k (lit "outputToken") then option_map VString u
       else if str_eqb k (lit "items") then option_map VString t else if str_eqb k (lit "pageSize") then option_map VString p else None) ->
    value_meant fits (TcPaginated i u t p) (Some (VObject o))
| vm_external l o :
    (forall k, hm_get str_eqb k o = option_map VString (latest (map snd (filter (fun e => str_eqb (fst e) k) l)))) ->
    value_meant fits (TcExternalDocumentation l) (Some (VObject o))
| vm_limits c a b o :
    In (c, (a, b)) [(TcLength a b, (a, b)); (TcRange a b, (a, b))]
    \/ (exists v, In (c, (a, b)) [(TcLengthMax v, (None, Some v)); (TcLengthMin v, (Some v, None)); (TcRangeMax v, (None, Some v)); (TcRangeMin v, (Some v, None))]) ->
    (forall k, match hm_get str_eqb k o with
               | None => (k = lit "min" -> a = None) /\ (k = lit "max" -> b = None)
               | Some v => exists n m, v = VNumber (NInteger m) /\ fits n m /\ (k = lit "min" /\ a = Some n \/ k = lit "max" /\ b = Some n)
               end) ->
    value_meant fits c (Some (VObject o)).
