(** Documents of the Smithy IDL with any members and any fields, and [apply] statements: which of them mean
    something. No reference to the parser. Names, values, traits and members are those of Spec/IdlSpec.v. *)
From Verif.Model Require Import SemModel Builder.
From Verif.Spec Require Export IdlSpec QueriesSpec.

(** ** Trees *)
Inductive raw_body :=
| RSimple (s : simple)
| RList (ms : list idl_member) | RSet (ms : list idl_member) | RMap (ms : list idl_member)
| RStructure (ms : list idl_member) | RUnion (ms : list idl_member)
| RService (l : list (idl_key * idl_node)) | ROperation (l : list (idl_key * idl_node)) | RResource (l : list (idl_key * idl_node)).
Inductive raw_statement :=
| RShape (docs : list str) (ts : list idl_trait) (n : str) (b : raw_body)
| RApply (r : idl_ref) (t : idl_trait).
Record raw_section := RawSection { rw_namespace : str; rw_uses : list shape_id; rw_statements : list raw_statement }.
Record raw_document := RawDocument {
  rw_control : list (idl_key * idl_node); rw_metadata : list (idl_key * idl_node); rw_section : raw_section }.

(** ** Their text *)
Definition raw_body_text (n : str) (b : raw_body) : str :=
  match b with
  | RSimple s => lit (simple_word s) ++ lit " " ++ n
  | RList ms => keyword_text "list" n (map idl_member_text ms)
  | RSet ms => keyword_text "set" n (map idl_member_text ms)
  | RMap ms => keyword_text "map" n (map idl_member_text ms)
  | RStructure ms => keyword_text "structure" n (map idl_member_text ms)
  | RUnion ms => keyword_text "union" n (map idl_member_text ms)
  | RService l => keyword_text "service" n (map node_entry_text l)
  | ROperation l => keyword_text "operation" n (map node_entry_text l)
  | RResource l => keyword_text "resource" n (map node_entry_text l)
  end.
Definition raw_statement_text (s : raw_statement) : str :=
  match s with
  | RShape docs ts n b => heading_text docs ts ++ raw_body_text n b
  | RApply r t => lit "apply " ++ ref_text r ++ lit " " ++ idl_trait_text t
  end.
Definition raw_document_text (d : raw_document) : str :=
  all_lines (map control_line (rw_control d) ++ map metadata_line (rw_metadata d)
             ++ (lit "namespace " ++ rw_namespace (rw_section d)) :: map (fun i => lit "use " ++ id_text i) (rw_uses (rw_section d))
             ++ map raw_statement_text (rw_statements (rw_section d))).
Definition raw_laid_out (d : raw_document) (t : str) : Prop := t = raw_document_text d \/ same_tokens (raw_document_text d) t.

(** ** When they follow the grammar *)
Definition raw_body_ok (b : raw_body) : Prop :=
  match b with
  | RSimple _ => True
  | RList ms | RSet ms | RMap ms | RStructure ms | RUnion ms => Forall idl_member_ok ms
  | RService l | ROperation l | RResource l => entries_ok l
  end.
Definition raw_statement_ok (s : raw_statement) : Prop :=
  match s with
  | RShape docs ts n b => heading_ok docs ts /\ short_identifier n /\ raw_body_ok b
  | RApply r t => ref_ok r /\ trait_ok t
  end.
Definition raw_document_ok (d : raw_document) : Prop :=
  entries_ok (rw_control d) /\ entries_ok (rw_metadata d) /\ dotted_name (rw_namespace (rw_section d))
  /\ Forall absolute (rw_uses (rw_section d)) /\ Forall raw_statement_ok (rw_statements (rw_section d)).

(** ** What they mean, if anything *)

(** A value that names a shape. *)
Definition reference (v : value) (n : shape_name) : Prop := valid_name n /\ v = VString (name_text n).
Definition no_reference (v : value) : Prop := forall n, ~ reference v n.
Definition fields := list (str * value).
Definition field_of (o : fields) (k : string) : option value := hm_get str_eqb (lit k) o.
Definition one_at (o : fields) (k : string) (n : option shape_name) : Prop :=
  match field_of o k with None => n = None | Some v => exists x, n = Some x /\ reference v x end.
Definition all_at (o : fields) (k : string) (ns : list shape_name) : Prop :=
  match field_of o k with None => ns = [] | Some v => exists vs, v = VArray vs /\ Forall2 reference vs ns end.
Definition named_at (o : fields) (k : string) (l : list (str * shape_name)) : Prop :=
  match field_of o k with
  | None => l = []
  | Some v => exists vs, v = VObject vs /\ Forall2 (fun e x => is_identifier (fst e) /\ fst x = fst e /\ reference (snd e) (snd x)) vs l
  end.
Definition only (ks : list string) (o : fields) : Prop := forall k v, In (k, v) o -> In k (map lit ks).

Definition service_means (o : fields) (b : service_builder) : Prop :=
  exists v ops rs, field_of o "version" = Some (VString v) /\ all_at o "operations" ops /\ all_at o "resources" rs
    /\ only ["version"; "operations"; "resources"]%string o /\ b = SvB v ops rs [].
Definition operation_means (o : fields) (b : operation_builder) : Prop :=
  exists i u es, one_at o "input" i /\ one_at o "output" u /\ all_at o "errors" es
    /\ only ["input"; "output"; "errors"]%string o /\ b = OpB i u es.
Section Means.
  Variable f64_parse : str -> Z.
  Context `{Hasher}.
  Definition resource_means (o : fields) (b : resource_builder) : Prop :=
    exists ids c p r u d l ops cops rs,
      named_at o "identifiers" ids /\ one_at o "create" c /\ one_at o "put" p /\ one_at o "read" r /\ one_at o "update" u
      /\ one_at o "delete" d /\ one_at o "list" l
      /\ all_at o "operations" ops /\ all_at o "collectionOperations" cops /\ all_at o "resources" rs
      /\ only ["identifiers"; "create"; "put"; "read"; "update"; "delete"; "list"; "operations"; "collectionOperations"; "resources"]%string o
      /\ b = RsB (hm_from_list ident_key_eqb ids) c p r u d l ops cops rs.
  Definition fields_of (l : list (idl_key * idl_node)) : fields :=
    object_of (map (fun e => (idl_key_text (fst e), node_value f64_parse (snd e))) l).
  Inductive body_means : raw_body -> builder_body -> Prop :=
  | bm_simple s : body_means (RSimple s) (BSimple s)
  | bm_list m : same_name (im_name m) (lit "member") -> body_means (RList [m]) (BList (bare_member "member" (im_target m)))
  | bm_set m : same_name (im_name m) (lit "member") -> body_means (RSet [m]) (BSet (bare_member "member" (im_target m)))
  | bm_map ms k v : Forall (fun m => same_name (im_name m) (lit "key") \/ same_name (im_name m) (lit "value")) ms ->
      last_named "key" ms = Some k -> last_named "value" ms = Some v ->
      body_means (RMap ms) (BMap (bare_member "key" k) (bare_member "value" v))
  | bm_structure ms : body_means (RStructure ms) (BStructure (map (declared_member f64_parse) ms))
  | bm_union ms : body_means (RUnion ms) (BUnion (map (declared_member f64_parse) ms))
  | bm_service l b : service_means (fields_of l) b -> body_means (RService l) (BService b)
  | bm_operation l b : operation_means (fields_of l) b -> body_means (ROperation l) (BOperation b)
  | bm_resource l b : resource_means (fields_of l) b -> body_means (RResource l) (BResource b).
  Inductive statement_means : raw_statement -> shape_builder -> Prop :=
  | sm_shape docs ts n b bb : body_means b bb -> statement_means (RShape docs ts n b) (SB (Local n) (declared_traits f64_parse docs ts) bb).
  Definition meaningless (s : raw_statement) : Prop := forall sb, ~ statement_means s sb.

  (** ** Fields that make the reader panic: a service without a version, and names that are not names. *)
  Definition bad_name_in (v : value) : Prop := exists vs x, v = VArray vs /\ In x vs /\ no_reference x.
  Definition bad_entry_in (v : value) : Prop :=
    exists vs k x, v = VObject vs /\ In (k, x) vs /\ (~ is_identifier k \/ no_reference x).
  Definition bad_field (ones alls maps : list string) (o : fields) : Prop :=
    exists k v, In (k, v) o
      /\ (In k (map lit ones) /\ no_reference v \/ In k (map lit alls) /\ bad_name_in v \/ In k (map lit maps) /\ bad_entry_in v).
  Inductive alarming : raw_body -> Prop :=
  | al_version l : (forall v, field_of (fields_of l) "version" <> Some (VString v)) -> alarming (RService l)
  | al_service l : bad_field [] ["operations"; "resources"]%string [] (fields_of l) -> alarming (RService l)
  | al_operation l : bad_field ["input"; "output"]%string ["errors"]%string [] (fields_of l) -> alarming (ROperation l)
  | al_resource l :
      bad_field ["create"; "put"; "read"; "update"; "delete"; "list"]%string ["operations"; "collectionOperations"; "resources"]%string
                ["identifiers"]%string (fields_of l) -> alarming (RResource l).
  (** The calls that a document stands for. *)
  Definition raw_calls (d : raw_document) (sbs : list shape_builder) : list builder_op :=
    map (fun i => BoUses (id_text i)) (rw_uses (rw_section d)) ++ map BoShape sbs
    ++ map (fun e => BoMetadata (idl_key_text (fst e)) (node_value f64_parse (snd e))) (rw_metadata d).
  Definition raw_version_known (d : raw_document) : Prop :=
    forall v, hm_get str_eqb (lit "version") (fields_of (rw_control d)) = Some (VString v) -> v = lit "1" \/ v = lit "1.0".
End Means.
