(** Documents of the Smithy IDL as trees, the text of such a tree, and what it declares: written from the
    Smithy 1.0 specification of the IDL, as restricted and extended by atelier-smithy/src/smithy.pest. No
    reference to the parser. [apply] statements are left out. *)
From Verif.Model Require Import SemModel Builder.
From Verif.Spec Require Export IdentitySpec SmithySpec LayoutSpec BuilderSpec.

(** ** Trees *)

(** [City] or [example.weather#City]. *)
Inductive idl_ref := Bare (n : str) | Full (id : shape_id).
(** [name] or ["any text"]. *)
Inductive idl_key := Plain (n : str) | Quoted (t : str).
Inductive idl_node :=
| INull | IBool (b : bool) | IInt (n : Z) | IDecimal (t : str) | IText (t : str)
| IBlock (g : str) (t : str) (* a text block: the layout after its opening quotes, and its text *)
| IRef (r : idl_ref)
| IArray (l : list idl_node)
| IObject (l : list (idl_key * idl_node)).
(** [@name], [@name(value)] or [@name(key: value, ...)]. *)
Inductive idl_arguments := NoArguments | OneValue (v : idl_node) | Arguments (l : list (idl_key * idl_node)).
Record idl_trait := Trait { it_name : idl_ref; it_arguments : idl_arguments }.
(** The lines of the documentation comment, without their slashes, the traits, and [name: target]. *)
Record idl_member := Member { im_docs : list str; im_traits : list idl_trait; im_name : str; im_target : idl_ref }.
Inductive service_field := SvVersion (t : str) | SvOperations (l : list idl_ref) | SvResources (l : list idl_ref).
Inductive operation_field := OpInput (r : idl_ref) | OpOutput (r : idl_ref) | OpErrors (l : list idl_ref).
Inductive resource_field :=
| RsIdentifiers (l : list (str * idl_ref))
| RsCreate (r : idl_ref) | RsPut (r : idl_ref) | RsRead (r : idl_ref) | RsUpdate (r : idl_ref)
| RsDelete (r : idl_ref) | RsList (r : idl_ref)
| RsOperations (l : list idl_ref) | RsCollectionOperations (l : list idl_ref) | RsResources (l : list idl_ref).
Inductive idl_body :=
| DSimple (s : simple)
| DList (ms : list idl_member) | DSet (ms : list idl_member) | DMap (ms : list idl_member)
| DStructure (ms : list idl_member) | DUnion (ms : list idl_member)
| DService (fs : list service_field) | DOperation (fs : list operation_field) | DResource (fs : list resource_field).
Record idl_statement := Statement { is_docs : list str; is_traits : list idl_trait; is_name : str; is_body : idl_body }.
Record idl_section := Section_ { id_namespace : str; id_uses : list shape_id; id_statements : list idl_statement }.
Record idl_document := Document {
  id_control : list (idl_key * idl_node); id_metadata : list (idl_key * idl_node); id_section : option idl_section }.

(** ** Their text, in one layout *)
Definition line_end : str := [ascii_of_N 10].
Definition ref_text (r : idl_ref) : str := match r with Bare n => n | Full id => id_text id end.
Definition idl_key_text (k : idl_key) : str := match k with Plain n => n | Quoted t => quoted t end.
Fixpoint node_text (v : idl_node) : str :=
  let entry e := idl_key_text (fst e) ++ lit ": " ++ node_text (snd e) in
  match v with
  | INull => lit "null"
  | IBool b => if b then lit "true" else lit "false"
  | IInt n => int_to_str n
  | IDecimal t => t
  | IText t => quoted t
  | IBlock g t => block_quoted g t
  | IRef r => ref_text r
  | IArray l => lit "[" ++ join (lit ", ") (map node_text l) ++ lit "]"
  | IObject l => lit "{" ++ join (lit ", ") (map entry l) ++ lit "}"
  end.
Definition node_entry_text (e : idl_key * idl_node) : str := idl_key_text (fst e) ++ lit ": " ++ node_text (snd e).
Definition arguments_text (a : idl_arguments) : str :=
  match a with
  | NoArguments => []
  | OneValue v => lit "(" ++ node_text v ++ lit ")"
  | Arguments l => lit "(" ++ join (lit ", ") (map node_entry_text l) ++ lit ")"
  end.
Definition idl_trait_text (t : idl_trait) : str := lit "@" ++ ref_text (it_name t) ++ arguments_text (it_arguments t).
Definition heading_text (docs : list str) (ts : list idl_trait) : str :=
  concat (map (fun d => lit "///" ++ d ++ line_end) docs) ++ concat (map (fun t => idl_trait_text t ++ line_end) ts).
Definition idl_member_text (m : idl_member) : str :=
  heading_text (im_docs m) (im_traits m) ++ im_name m ++ lit ": " ++ ref_text (im_target m).
Definition simple_word (s : simple) : string :=
  match s with
  | SBlob => "blob" | SBoolean => "boolean" | SDocument => "document" | SString => "string" | SByte => "byte"
  | SShort => "short" | SInteger => "integer" | SLong => "long" | SFloat => "float" | SDouble => "double"
  | SBigInteger => "bigInteger" | SBigDecimal => "bigDecimal" | STimestamp => "timestamp"
  end.
(** Fields as entries of an object. *)
Definition refs_node (l : list idl_ref) : idl_node := IArray (map IRef l).
Definition service_entry (f : service_field) : string * idl_node :=
  match f with
  | SvVersion t => ("version"%string, IText t)
  | SvOperations l => ("operations"%string, refs_node l)
  | SvResources l => ("resources"%string, refs_node l)
  end.
Definition operation_entry (f : operation_field) : string * idl_node :=
  match f with
  | OpInput r => ("input"%string, IRef r) | OpOutput r => ("output"%string, IRef r) | OpErrors l => ("errors"%string, refs_node l)
  end.
Definition resource_entry (f : resource_field) : string * idl_node :=
  match f with
  | RsIdentifiers l => ("identifiers"%string, IObject (map (fun e => (Plain (fst e), IRef (snd e))) l))
  | RsCreate r => ("create"%string, IRef r) | RsPut r => ("put"%string, IRef r) | RsRead r => ("read"%string, IRef r)
  | RsUpdate r => ("update"%string, IRef r) | RsDelete r => ("delete"%string, IRef r) | RsList r => ("list"%string, IRef r)
  | RsOperations l => ("operations"%string, refs_node l)
  | RsCollectionOperations l => ("collectionOperations"%string, refs_node l)
  | RsResources l => ("resources"%string, refs_node l)
  end.
Definition braces (l : list str) : str := lit "{" ++ join line_end l ++ lit "}".
Definition keyword_text (kw : string) (n : str) (l : list str) : str := lit kw ++ lit " " ++ n ++ lit " " ++ braces l.
Definition field_text (e : string * idl_node) : str := lit (fst e) ++ lit ": " ++ node_text (snd e).
Definition idl_body_text (n : str) (b : idl_body) : str :=
  match b with
  | DSimple s => lit (simple_word s) ++ lit " " ++ n
  | DList ms => keyword_text "list" n (map idl_member_text ms)
  | DSet ms => keyword_text "set" n (map idl_member_text ms)
  | DMap ms => keyword_text "map" n (map idl_member_text ms)
  | DStructure ms => keyword_text "structure" n (map idl_member_text ms)
  | DUnion ms => keyword_text "union" n (map idl_member_text ms)
  | DService fs => keyword_text "service" n (map (fun f => field_text (service_entry f)) fs)
  | DOperation fs => keyword_text "operation" n (map (fun f => field_text (operation_entry f)) fs)
  | DResource fs => keyword_text "resource" n (map (fun f => field_text (resource_entry f)) fs)
  end.
Definition idl_statement_text (s : idl_statement) : str :=
  heading_text (is_docs s) (is_traits s) ++ idl_body_text (is_name s) (is_body s).
Definition control_line (e : idl_key * idl_node) : str := lit "$" ++ node_entry_text e.
Definition metadata_line (e : idl_key * idl_node) : str :=
  lit "metadata " ++ idl_key_text (fst e) ++ lit " = " ++ node_text (snd e).
Definition all_lines (l : list str) : str := concat (map (fun x => x ++ line_end) l).
Definition section_lines (s : idl_section) : list str :=
  (lit "namespace " ++ id_namespace s) :: map (fun i => lit "use " ++ id_text i) (id_uses s)
  ++ map idl_statement_text (id_statements s).
Definition document_text (d : idl_document) : str :=
  all_lines (map control_line (id_control d) ++ map metadata_line (id_metadata d)
             ++ match id_section d with Some s => section_lines s | None => [] end).

(** ** When they are well formed *)
Definition ref_ok (r : idl_ref) : Prop := match r with Bare n => short_identifier n | Full id => absolute id end.
Definition key_ok (k : idl_key) : Prop := match k with Plain n => short_identifier n | Quoted t => text_body t end.
(** A name inside a value is not taken for a keyword. *)
Definition value_ref_ok (r : idl_ref) : Prop := ref_ok r /\ no_keyword (ref_text r).
Inductive node_ok : idl_node -> Prop :=
| nk_null : node_ok INull
| nk_bool b : node_ok (IBool b)
| nk_int n : (-9223372036854775808 <= n <= 9223372036854775807)%Z -> node_ok (IInt n)
| nk_decimal t : decimal t -> node_ok (IDecimal t)
| nk_text t : text_body t -> node_ok (IText t)
| nk_block g t : layout g -> block_body t -> after_layout t -> node_ok (IBlock g t)
| nk_ref r : value_ref_ok r -> node_ok (IRef r)
| nk_array l : Forall node_ok l -> node_ok (IArray l)
| nk_object l : Forall (fun e => key_ok (fst e) /\ node_ok (snd e)) l -> node_ok (IObject l).
Definition entries_ok (l : list (idl_key * idl_node)) : Prop := Forall (fun e => key_ok (fst e) /\ node_ok (snd e)) l.
Definition arguments_ok (a : idl_arguments) : Prop :=
  match a with NoArguments => True | OneValue v => node_ok v | Arguments l => entries_ok l end.
Definition trait_ok (t : idl_trait) : Prop := ref_ok (it_name t) /\ arguments_ok (it_arguments t).
Definition heading_ok (docs : list str) (ts : list idl_trait) : Prop := Forall comment_text docs /\ Forall trait_ok ts.
Definition idl_member_ok (m : idl_member) : Prop :=
  heading_ok (im_docs m) (im_traits m) /\ short_identifier (im_name m) /\ ref_ok (im_target m).
Definition fields_ok {F} (entry : F -> string * idl_node) (fs : list F) : Prop :=
  NoDup (map (fun f => fst (entry f)) fs) /\ Forall (fun f => node_ok (snd (entry f))) fs.
Definition idl_body_ok (b : idl_body) : Prop :=
  match b with
  | DSimple _ => True
  | DList ms | DSet ms => exists m, ms = [m] /\ idl_member_ok m /\ same_name (im_name m) (lit "member")
  | DMap ms =>
      Forall (fun m => idl_member_ok m /\ (same_name (im_name m) (lit "key") \/ same_name (im_name m) (lit "value"))) ms
      /\ Exists (fun m => same_name (im_name m) (lit "key")) ms /\ Exists (fun m => same_name (im_name m) (lit "value")) ms
  | DStructure ms | DUnion ms => Forall idl_member_ok ms
  | DService fs => fields_ok service_entry fs /\ exists t, In (SvVersion t) fs
  | DOperation fs => fields_ok operation_entry fs
  | DResource fs =>
      fields_ok resource_entry fs
      /\ forall l, In (RsIdentifiers l) fs -> NoDup (map fst l)
  end.
Definition idl_statement_ok (s : idl_statement) : Prop :=
  heading_ok (is_docs s) (is_traits s) /\ short_identifier (is_name s) /\ idl_body_ok (is_body s).
Definition section_ok (s : idl_section) : Prop :=
  dotted_name (id_namespace s) /\ Forall absolute (id_uses s) /\ Forall idl_statement_ok (id_statements s).

(** ** What they declare *)
Definition declared_name (r : idl_ref) : shape_name := match r with Bare n => Local n | Full id => Qualified id end.
Section Meaning.
  Variable f64_parse : str -> Z.
  Context `{Hasher}.

  (** Of two entries with the same key the later one stays. In objects quoted keys keep their quotes; as names of
      arguments they do not. *)
  Definition object_of (l : list (str * value)) : list (str * value) := hm_from_list str_eqb l.
  Fixpoint node_value (v : idl_node) : value :=
    match v with
    | INull => VNone
    | IBool b => VBoolean b
    | IInt n => VNumber (NInteger n)
    | IDecimal t => VNumber (NFloat (f64_parse t))
    | IText t => VString t
    | IBlock g t => VString t
    | IRef r => VString (ref_text r)
    | IArray l => VArray (map node_value l)
    | IObject l => VObject (object_of (map (fun e => (idl_key_text (fst e), node_value (snd e))) l))
    end.
  Definition argument_name (k : idl_key) : str := match k with Plain n => n | Quoted t => t end.
  Definition arguments_value (a : idl_arguments) : value :=
    match a with
    | NoArguments => VObject []
    | OneValue v => node_value v
    | Arguments l => VObject (object_of (map (fun e => (argument_name (fst e), node_value (snd e))) l))
    end.
  Definition declared_trait (t : idl_trait) : trait_builder :=
    TB (declared_name (it_name t)) (Some (arguments_value (it_arguments t))).
  (** A documentation comment is a trait in front of the others: its lines without what they are indented by. *)
  Definition white (c : N) : bool :=
    existsb (N.eqb c) [9; 10; 11; 12; 13; 32; 133; 160; 5760; 8192; 8193; 8194; 8195; 8196; 8197; 8198; 8199; 8200; 8201; 8202;
                       8232; 8233; 8239; 8287; 12288]%N.
  Fixpoint drop_white (n : nat) (s : str) : str :=
    match n, Peg.decode1 s with
    | S n', Some (c, s') => if white c then drop_white n' s' else s
    | _, _ => s
    end.
  Definition unindented (s : str) : str := drop_white (List.length s) s.
  Definition documentation_id : shape_id := SID (lit "smithy.api") (lit "documentation") None.
  Definition declared_traits (docs : list str) (ts : list idl_trait) : list trait_builder :=
    match docs with
    | [] => []
    | _ => [TB (Qualified documentation_id) (Some (VString (join line_end (map unindented docs))))]
    end ++ map declared_trait ts.
  Definition declared_member (m : idl_member) : member_builder :=
    MB (im_name m) (declared_traits (im_docs m) (im_traits m)) (declared_name (im_target m)).
  (** Members of lists, sets and maps lose their traits. *)
  Definition bare_member (n : string) (r : idl_ref) : member_builder := MB (lit n) [] (declared_name r).
  (** The last one. *)
  Definition last_of {A B} (f : A -> option B) (l : list A) : option B :=
    fold_left (fun o x => match f x with Some y => Some y | None => o end) l None.
  Definition last_named (n : string) (ms : list idl_member) : option idl_ref :=
    last_of (fun m => if str_eqb (lower (im_name m)) (lower (lit n)) then Some (im_target m) else None) ms.
  Definition declared_service (fs : list service_field) : service_builder :=
    SvB (match last_of (fun f => match f with SvVersion t => Some t | _ => None end) fs with Some t => t | None => [] end)
        (flat_map (fun f => match f with SvOperations l => map declared_name l | _ => [] end) fs)
        (flat_map (fun f => match f with SvResources l => map declared_name l | _ => [] end) fs) [].
  Definition one_of {A} (f : A -> option idl_ref) (fs : list A) : option shape_name := option_map declared_name (last_of f fs).
  Definition declared_operation (fs : list operation_field) : operation_builder :=
    OpB (one_of (fun f => match f with OpInput r => Some r | _ => None end) fs)
        (one_of (fun f => match f with OpOutput r => Some r | _ => None end) fs)
        (flat_map (fun f => match f with OpErrors l => map declared_name l | _ => [] end) fs).
  Definition declared_resource (fs : list resource_field) : resource_builder :=
    RsB (hm_from_list ident_key_eqb (flat_map (fun f => match f with RsIdentifiers l => map (fun e => (fst e, declared_name (snd e))) l | _ => [] end) fs))
        (one_of (fun f => match f with RsCreate r => Some r | _ => None end) fs)
        (one_of (fun f => match f with RsPut r => Some r | _ => None end) fs)
        (one_of (fun f => match f with RsRead r => Some r | _ => None end) fs)
        (one_of (fun f => match f with RsUpdate r => Some r | _ => None end) fs)
        (one_of (fun f => match f with RsDelete r => Some r | _ => None end) fs)
        (one_of (fun f => match f with RsList r => Some r | _ => None end) fs)
        (flat_map (fun f => match f with RsOperations l => map declared_name l | _ => [] end) fs)
        (flat_map (fun f => match f with RsCollectionOperations l => map declared_name l | _ => [] end) fs)
        (flat_map (fun f => match f with RsResources l => map declared_name l | _ => [] end) fs).
  Definition opt_member (n : string) (o : option idl_ref) : member_builder :=
    match o with Some r => bare_member n r | None => MB (lit n) [] (Local []) end.
  Definition declared_body (b : idl_body) : builder_body :=
    match b with
    | DSimple s => BSimple s
    | DList ms => BList (opt_member "member" (last_named "member" ms))
    | DSet ms => BSet (opt_member "member" (last_named "member" ms))
    | DMap ms => BMap (opt_member "key" (last_named "key" ms)) (opt_member "value" (last_named "value" ms))
    | DStructure ms => BStructure (map declared_member ms)
    | DUnion ms => BUnion (map declared_member ms)
    | DService fs => BService (declared_service fs)
    | DOperation fs => BOperation (declared_operation fs)
    | DResource fs => BResource (declared_resource fs)
    end.
  Definition declared_shape (s : idl_statement) : shape_builder :=
    SB (Local (is_name s)) (declared_traits (is_docs s) (is_traits s)) (declared_body (is_body s)).
  (** The calls of the model builder that a document stands for. *)
  Definition section_calls (d : idl_document) (s : idl_section) : list builder_op :=
    map (fun i => BoUses (id_text i)) (id_uses s) ++ map (fun x => BoShape (declared_shape x)) (id_statements s)
    ++ map (fun e => BoMetadata (idl_key_text (fst e)) (node_value (snd e))) (id_metadata d).
  (** The version asked for, if it is a text. *)
  Definition version_asked (d : idl_document) : option str :=
    match hm_get str_eqb (lit "version") (object_of (map (fun e => (idl_key_text (fst e), node_value (snd e))) (id_control d))) with
    | Some (VString v) => Some v
    | _ => None
    end.
  Definition version_known (d : idl_document) : Prop := forall v, version_asked d = Some v -> v = lit "1" \/ v = lit "1.0".
  Definition document_ok (d : idl_document) : Prop :=
    entries_ok (id_control d) /\ entries_ok (id_metadata d)
    /\ match id_section d with Some s => section_ok s | None => True end.
  (** The text of a document, laid out in some way. *)
  Definition laid_out (d : idl_document) (t : str) : Prop := t = document_text d \/ same_tokens (document_text d) t.
End Meaning.

(** ** Sections without clashes *)

(** The imports and the declarations have different names, whatever their case, and services have a version. *)
Definition plain_section (s : idl_section) : Prop :=
  NoDup (map lower (map sid_name (id_uses s) ++ map is_name (id_statements s)))
  /\ forall x fs t, In x (id_statements s) -> is_body x = DService fs -> In (SvVersion t) fs -> t <> [].
Definition own (s : idl_section) (n : str) : shape_id := SID (id_namespace s) n None.
(** The shape that a name refers to: Smithy 1.0, "relative shape ID resolution". *)
Inductive refers (s : idl_section) (is_trait : bool) : idl_ref -> shape_id -> Prop :=
| refers_full i : sid_member i = None -> refers s is_trait (Full i) i
| refers_import n i : In i (id_uses s) -> same_name (sid_name i) n -> refers s is_trait (Bare n) i
| refers_declared x : In x (id_statements s) -> refers s is_trait (Bare (is_name x)) (own s (is_name x))
| refers_prelude n :
    Forall (fun n' => ~ same_name n' n) (map sid_name (id_uses s) ++ map is_name (id_statements s)) ->
    in_prelude is_trait n -> refers s is_trait (Bare n) (SID (lit "smithy.api") n None)
| refers_unknown n :
    Forall (fun n' => ~ same_name n' n) (map sid_name (id_uses s) ++ map is_name (id_statements s)) ->
    ~ in_prelude is_trait n -> refers s is_trait (Bare n) (own s n).
