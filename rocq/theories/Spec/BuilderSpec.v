(** What names in a builder mean and what must be built from it. *)
From Verif.Model Require Import Builder.
From Verif.Spec Require Export ModelSpec.

(** The simple types with their prelude shapes: capitalised, and a "Primitive" variant of those that
    have a default value. *)
Definition prelude_simple : list (string * string) :=
  [("blob", "Blob"); ("boolean", "Boolean"); ("document", "Document"); ("string", "String"); ("byte", "Byte");
   ("short", "Short"); ("integer", "Integer"); ("long", "Long"); ("float", "Float"); ("double", "Double");
   ("bigInteger", "BigInteger"); ("bigDecimal", "BigDecimal"); ("timestamp", "Timestamp")]%string.
Definition has_primitive : list string := ["Boolean"; "Byte"; "Short"; "Integer"; "Long"; "Float"; "Double"]%string.
Definition prelude_shape (n : str) : Prop :=
  (exists t p, In (t, p) prelude_simple /\ n = lit p) \/ (exists p, In p has_primitive /\ n = lit "Primitive" ++ lit p).
(** The traits of the prelude in alphabetical order, and the shapes the prelude defines for their values. *)
Definition trait_names : list string :=
  ["auth"; "authDefinition"; "box"; "cors"; "deprecated"; "documentation"; "endpoint"; "enum"; "error";
   "eventHeader"; "eventPayload"; "examples"; "externalDocumentation"; "hostLabel"; "http"; "httpApiKeyAuth";
   "httpBasicAuth"; "httpBearerAuth"; "httpChecksumRequired"; "httpDigestAuth"; "httpError"; "httpHeader";
   "httpLabel"; "httpPayload"; "httpPrefixHeaders"; "httpQuery"; "idRef"; "idempotencyToken"; "idempotent";
   "jsonName"; "length"; "mediaType"; "noReplace"; "optionalAuth"; "paginated"; "pattern"; "private";
   "protocolDefinition"; "range"; "readonly"; "recommended"; "references"; "required"; "requiresLength";
   "resourceIdentifier"; "retryable"; "sensitive"; "since"; "streaming"; "suppress"; "tags";
   "timestampFormat"; "title"; "trait"; "uniqueItems"; "unstable"; "xmlAttribute"; "xmlFlattened"; "xmlName";
   "xmlNamespace"]%string.
Definition trait_value_shapes : list string :=
  ["AuthTraitReference"; "EnumConstantBodyName"; "EnumDefinition"; "Example"; "HttpApiKeyLocations";
   "NonEmptyString"; "NonEmptyStringList"; "NonEmptyStringMap"; "Reference"; "StructurallyExclusive";
   "TraitShapeId"; "TraitShapeIdList"]%string.
Definition prelude_trait (n : str) : Prop := exists t, (In t trait_names \/ In t trait_value_shapes) /\ n = lit t.
Definition in_prelude (is_trait : bool) (n : str) : Prop := if is_trait then prelude_trait n else prelude_shape n.

Section WithHasher.
  Context `{Hasher}.

  (** [q] has been imported ([uses], [reference], or [apply] to a shape not in the builder). *)
  Definition imported (b : builder) (q : shape_id) : Prop :=
    exists s, In (Qualified q, s) (bd_shapes b) /\ sb_body s = BReference.
  Definition import_of (b : builder) (n : str) (q : shape_id) : Prop := imported b q /\ same_name (sid_name q) n.
  (** A shape has been declared under the bare name [n] (or one its hash map takes for it). *)
  Definition declared (b : builder) (n : str) : Prop :=
    exists n' s, In (Local n', s) (bd_shapes b) /\ ident_key_eqb n' n = true.

  (** The resolution rules, Smithy 1.0 "relative shape ID resolution". The flag says that the name
      was found nowhere. *)
  Inductive resolution (b : builder) (is_trait : bool) : shape_name -> result (shape_id * bool) -> Prop :=
  | rn_absolute q : sid_member q = None -> resolution b is_trait (Qualified q) (Ok (q, false))
  | rn_member q m : sid_member q = Some m -> resolution b is_trait (Qualified q) (Err (EShapeIDExpected q))
  | rn_import n q :
      import_of b n q -> (forall q', import_of b n q' -> q' = q) -> resolution b is_trait (Local n) (Ok (q, false))
  | rn_ambiguous n q q' :
      import_of b n q -> import_of b n q' -> q <> q' -> resolution b is_trait (Local n) (Err (EAmbiguousShape n))
  | rn_declared n :
      (forall q, ~ import_of b n q) -> declared b n ->
      resolution b is_trait (Local n) (Ok (SID (bd_namespace b) n None, false))
  | rn_prelude n :
      (forall q, ~ import_of b n q) -> ~ declared b n -> in_prelude is_trait n ->
      resolution b is_trait (Local n) (Ok (SID "smithy.api" n None, false))
  | rn_unknown n :
      (forall q, ~ import_of b n q) -> ~ declared b n -> ~ in_prelude is_trait n ->
      resolution b is_trait (Local n) (Ok (SID (bd_namespace b) n None, true)).

  (** Builders as they arise: a hash map of declarations under (keys matching) their own names,
      references under absolute ones. *)
  Definition builder_ok (b : builder) : Prop :=
    distinct name_key_eqb (bd_shapes b)
    /\ (forall k s, In (k, s) (bd_shapes b) ->
          name_key_eqb k (sb_name s) = true /\ (sb_body s = BReference -> exists q, sb_name s = Qualified q))
    /\ distinct str_eqb (bd_metadata b).

  (** A history of calls; a panic ends it. Declarations can be anything the builders of shapes.rs can
      hold, references have absolute names. *)
  Inductive builder_op :=
  | BoShape (s : shape_builder)
  | BoUses (id : str)
  | BoApply (shape : str) (t : trait_builder)
  | BoMetadata (k : str) (v : value).
  Definition op_ok (o : builder_op) : Prop :=
    match o with BoShape s => sb_body s = BReference -> exists q, sb_name s = Qualified q | _ => True end.
  Definition builder_step (b : builder) (o : builder_op) : result builder :=
    match o with
    | BoShape s => Ok (bd_insert b s)
    | BoUses id => bd_uses b id
    | BoApply s t => bd_apply b s t
    | BoMetadata k v => Ok (bd_metadata_insert b k v)
    end.
  Fixpoint builder_run (b : builder) (ops : list builder_op) : result builder :=
    match ops with [] => Ok b | o :: ops' => b' <- builder_step b o ;; builder_run b' ops' end.

  (** ** What is built *)
  Definition names_to (b : builder) (is_trait : bool) (n : shape_name) (id : shape_id) : Prop :=
    exists fresh, resolution b is_trait n (Ok (id, fresh)).
  Definition trait_from (b : builder) (t : trait_builder) (p : shape_id * option value) : Prop :=
    names_to b true (tb_id t) (fst p) /\ snd p = tb_value t.
  (** Collected into a map: of two traits with the same id the later one stays. *)
  Definition traits_from (b : builder) (l : list trait_builder) (ts : traits) : Prop :=
    exists ps, Forall2 (trait_from b) l ps /\ ts = hm_from_list sid_key_eqb ps.
  Definition member_from (b : builder) (m : member_builder) (x : member_shape) : Prop :=
    ms_id x = mb_name m /\ names_to b false (mb_target m) (ms_target x) /\ traits_from b (mb_traits m) (ms_traits x).
  Definition members_from (b : builder) (l : list member_builder) (ms : members) : Prop :=
    exists xs, Forall2 (member_from b) l xs /\ ms = hm_from_list ident_key_eqb (map (fun x => (ms_id x, x)) xs).
  Definition target_from (b : builder) : shape_name -> shape_id -> Prop := names_to b false.
  Inductive body_from (b : builder) : builder_body -> shape_kind -> Prop :=
  | bf_simple s : body_from b (BSimple s) (KSimple s)
  | bf_list m x : member_from b m x -> body_from b (BList m) (KList x)
  | bf_set m x : member_from b m x -> body_from b (BSet m) (KSet x)
  | bf_map k v x y : member_from b k x -> member_from b v y -> body_from b (BMap k v) (KMap x y)
  | bf_structure l ms : members_from b l ms -> body_from b (BStructure l) (KStructure ms)
  | bf_union l ms : members_from b l ms -> body_from b (BUnion l) (KUnion ms)
  | bf_service s ops rs :
      Forall2 (target_from b) (svb_operations s) ops -> Forall2 (target_from b) (svb_resources s) rs ->
      body_from b (BService s) (KService (Service (svb_version s) ops rs (hm_from_list sid_key_eqb (svb_renames s))))
  | bf_operation o i u es :
      opt_rel (target_from b) (opb_input o) i -> opt_rel (target_from b) (opb_output o) u ->
      Forall2 (target_from b) (opb_errors o) es ->
      body_from b (BOperation o) (KOperation (Operation i u es))
  | bf_resource r ids c p g u d l ops cops rs :
      Forall2 (fun e i => fst i = fst e /\ target_from b (snd e) (snd i)) (rsb_identifiers r) ids ->
      opt_rel (target_from b) (rsb_create r) c -> opt_rel (target_from b) (rsb_put r) p ->
      opt_rel (target_from b) (rsb_read r) g -> opt_rel (target_from b) (rsb_update r) u ->
      opt_rel (target_from b) (rsb_delete r) d -> opt_rel (target_from b) (rsb_list r) l ->
      Forall2 (target_from b) (rsb_operations r) ops ->
      Forall2 (target_from b) (rsb_collection_operations r) cops ->
      Forall2 (target_from b) (rsb_resources r) rs ->
      body_from b (BResource r) (KResource (Resource (hm_from_list ident_key_eqb ids) c p g u d l ops cops rs))
  | bf_reference : body_from b BReference KUnresolved.
  (** The id a declaration is about. *)
  Definition own_id (b : builder) (s : shape_builder) (id : shape_id) : Prop :=
    match sb_body s with BReference => sb_name s = Qualified id | _ => names_to b false (sb_name s) id end.
  (** [id] is the id of this declaration and of no other. *)
  Definition only_declaration (b : builder) (k : shape_name) (s : shape_builder) (id : shape_id) : Prop :=
    In (k, s) (bd_shapes b) /\ own_id b s id
    /\ (forall k' s' id', In (k', s') (bd_shapes b) -> own_id b s' id' -> sid_key_eqb id' id = true -> k' = k).
  (** A set builder makes a list: what the code builds instead of the declared body. *)
  Definition set_as_list (bb : builder_body) : builder_body := match bb with BSet m => BList m | _ => bb end.

  (** ** When building succeeds *)
  Definition member_mentions (m : member_builder) : list (bool * shape_name) :=
    (false, mb_target m) :: map (fun t => (true, tb_id t)) (mb_traits m).
  Definition opt_mention (o : option shape_name) : list (bool * shape_name) :=
    match o with Some n => [(false, n)] | None => [] end.
  Definition body_mentions (bb : builder_body) : list (bool * shape_name) :=
    match bb with
    | BSimple _ | BReference => []
    | BList m | BSet m => member_mentions m
    | BMap k v => member_mentions k ++ member_mentions v
    | BStructure l | BUnion l => flat_map member_mentions l
    | BService s => map (pair false) (svb_operations s ++ svb_resources s)
    | BOperation o => opt_mention (opb_input o) ++ opt_mention (opb_output o) ++ map (pair false) (opb_errors o)
    | BResource r =>
        map (fun e => (false, snd e)) (rsb_identifiers r)
        ++ flat_map opt_mention
             [rsb_create r; rsb_put r; rsb_read r; rsb_update r; rsb_delete r; rsb_list r]
        ++ map (pair false) (rsb_operations r ++ rsb_collection_operations r ++ rsb_resources r)
    end.
  (** Every name in a declaration: its own, its targets and (flag [true]) its traits. *)
  Definition mentions (s : shape_builder) : list (bool * shape_name) :=
    (match sb_body s with BReference => [] | _ => [(false, sb_name s)] end)
    ++ body_mentions (sb_body s) ++ map (fun t => (true, tb_id t)) (sb_traits s).
  (** Lists and sets whose member is called "member", services with a version. *)
  Definition well_built (s : shape_builder) : Prop :=
    match sb_body s with
    | BList m | BSet m => mb_name m = lit "member"
    | BService sv => svb_version sv <> []
    | _ => True
    end.
End WithHasher.

(** ** Applying traits *)
(** [b'] is [b] with the trait added to its (first) member called [m]. Names are compared as in the API:
    exactly in lists, sets and maps, without regard to case in structures and unions. *)
Definition with_trait (t : trait_builder) (x y : member_builder) : Prop :=
  mb_name y = mb_name x /\ mb_target y = mb_target x /\ mb_traits y = mb_traits x ++ [t].
Definition in_first (m : str) (t : trait_builder) (l l' : list member_builder) : Prop :=
  exists before x x' after, l = before ++ x :: after /\ l' = before ++ x' :: after /\ with_trait t x x'
    /\ same_name (mb_name x) m /\ (forall y, In y before -> ~ same_name (mb_name y) m).
Inductive member_traited (m : str) (t : trait_builder) : builder_body -> builder_body -> Prop :=
| mt_list x y : m = lit "member" -> with_trait t x y -> member_traited m t (BList x) (BList y)
| mt_set x y : m = lit "member" -> with_trait t x y -> member_traited m t (BSet x) (BSet y)
| mt_key x y v : m = lit "key" -> with_trait t x y -> member_traited m t (BMap x v) (BMap y v)
| mt_value x y k : m = lit "value" -> with_trait t x y -> member_traited m t (BMap k x) (BMap k y)
| mt_structure l l' : in_first m t l l' -> member_traited m t (BStructure l) (BStructure l')
| mt_union l l' : in_first m t l l' -> member_traited m t (BUnion l) (BUnion l').
Section Applying.
  Context `{Hasher}.
  (** No import names a member, and trait values are proper values. *)
  Definition imports_plain (b : builder) : Prop := forall q, imported b q -> sid_member q = None.
  Definition trait_values_ok (s : shape_builder) : Prop :=
    Forall (fun t => match tb_value t with Some v => value_ok v | None => True end) (sb_traits s).
  (** [id] is declared by [s1], there is a reference to it with traits, and that is all. *)
  Definition declared_and_referenced (b : builder) (k1 : shape_name) (s1 : shape_builder) (k2 : shape_name)
      (s2 : shape_builder) (id : shape_id) : Prop :=
    In (k1, s1) (bd_shapes b) /\ In (k2, s2) (bd_shapes b) /\ k1 <> k2
    /\ own_id b s1 id /\ sb_body s2 = BReference
    /\ (exists id2, own_id b s2 id2 /\ sid_key_eqb id2 id = true)
    /\ (forall k s id', In (k, s) (bd_shapes b) -> own_id b s id' -> sid_key_eqb id' id = true -> k = k1 \/ k = k2).
  (** The two sets of traits combined, one way or the other. *)
  Definition traits_combined (a b r : traits) : Prop := merged_traits a b r \/ merged_traits b a r.
End Applying.
