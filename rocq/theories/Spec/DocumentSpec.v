(** What the documentation of a model must say, read from the document. *)
From Verif.Model Require Import Document.
From Verif.Spec Require Import IdentitySpec ModelSpec ReorderSpec.
From Verif.Spec Require GraphMLSpec.
From Coq Require Export Permutation Sorted.

(** ** Reading a document *)
Definition same_level (a b : level) : bool :=
  match a, b with Section1, Section1 | Section2, Section2 | Section3, Section3 => true | _, _ => false end.
(** The blocks before the first heading of a level, and then each such heading with the blocks below it. *)
Definition titled : Type := str * option str * list block.
Fixpoint by_heading (l : level) (bs : list block) : list block * list titled :=
  match bs with
  | [] => ([], [])
  | b :: bs' =>
      let (before, rest) := by_heading l bs' in
      match b with
      | Heading l' t lb => if same_level l l' then ([], (t, lb, before) :: rest) else (b :: before, rest)
      | _ => (b :: before, rest)
      end
  end.
Definition title_of (t : titled) : str := fst (fst t).
Definition label_of (t : titled) : option str := snd (fst t).
Definition body_blocks (t : titled) : list block := snd t.

(** Paragraphs of plain text; the links of the paragraphs "See also"; tables; and the shapes and names
    mentioned as links or code, in quotes and lists too. *)
Definition prose (bs : list block) : list str :=
  flat_map (fun b => match b with Paragraph [Plain s] => [s] | _ => [] end) bs.
Definition see_also (bs : list block) : list (list (str * str)) :=
  flat_map (fun b => match b with
                     | Paragraph (Plain _ :: External u c :: l) =>
                         [flat_map (fun i => match i with External u c => [(u, c)] | _ => [] end) (External u c :: l)]
                     | _ => [] end) bs.
Definition tables (bs : list block) : list (list (list cell)) :=
  flat_map (fun b => match b with Table _ rows => [rows] | _ => [] end) bs.
Fixpoint mentioned (i : inline) : list inline :=
  match i with
  | Code _ | Internal _ _ => [i]
  | Span l => flat_map mentioned l
  | _ => []
  end.
Fixpoint mentions1 (b : block) : list inline :=
  match b with
  | Paragraph l => flat_map mentioned l
  | Quote bs => flat_map mentions1 bs
  | Bullets items => flat_map (flat_map mentioned) items
  | _ => []
  end.
Definition mentions (bs : list block) : list inline := flat_map mentions1 bs.
(** The lines of a section besides its prose, its links "See also" and its tables. *)
Inductive line := Title (t : str) | Line (l : list inline).
Fixpoint pieces (i : inline) : list inline := match i with Span l => flat_map pieces l | _ => [i] end.
Fixpoint lines1 (b : block) : list line :=
  match b with
  | Heading _ t _ => [Title t]
  | Paragraph [Plain _] => []
  | Paragraph (Plain _ :: External _ _ :: _) => []
  | Paragraph l => [Line (flat_map pieces l)]
  | Quote bs => flat_map lines1 bs
  | Bullets items => map (fun i => Line (flat_map pieces i)) items
  | Table _ _ => []
  end.
Definition lines (bs : list block) : list line := flat_map lines1 bs.
(** What introduces the links "See also", and the columns of tables. *)
Definition introductions (bs : list block) : list str :=
  flat_map (fun b => match b with Paragraph (Plain s :: External _ _ :: _) => [s] | _ => [] end) bs.
Definition columns (bs : list block) : list (list str) :=
  flat_map (fun b => match b with Table c _ => [c] | _ => [] end) bs.

(** ** What it must say *)
Section Says.
  Context `{Hasher}.
  Variables (f64_str : Z -> str) (safe_label : str -> str -> str).

  (** A scalar as text. *)
  Definition scalar (v : value) : option str :=
    match v with
    | VBoolean true => Some (lit "true")
    | VBoolean false => Some (lit "false")
    | VNumber (NInteger z) => Some (int_to_str z)
    | VNumber (NFloat b) => Some (f64_str b)
    | VString s => Some s
    | _ => None
    end.
  Definition row (name : str) (path value : option str) : list cell :=
    let c o := match o with Some s => CCode s | None => CSkip end in [CPlain name; c path; c value].
  Definition key_before (a b : str * value) : Prop := text_before (fst a) (fst b).
  (** The rows for a value: one per scalar within it, with the last step of the path to it; entries of objects
      in the order of their keys. *)
  Inductive value_rows (name : str) : option str -> value -> list (list cell) -> Prop :=
  | vr_scalar path v t : scalar v = Some t -> value_rows name path v [row name path (Some t)]
  | vr_none path : value_rows name path VNone [row name None None]
  | vr_empty_array path : value_rows name path (VArray []) [row name None None]
  | vr_empty_object path : value_rows name path (VObject []) [row name None None]
  | vr_array path vs rows : vs <> [] -> array_rows name 0 vs rows -> value_rows name path (VArray vs) rows
  | vr_object path vs sorted rows :
      vs <> [] -> Permutation vs sorted -> StronglySorted key_before sorted -> object_rows name sorted rows ->
      value_rows name path (VObject vs) rows
  with array_rows (name : str) : nat -> list value -> list (list cell) -> Prop :=
  | ar_nil i : array_rows name i [] []
  | ar_cons i v vs r rows :
      value_rows name (Some (lit "[" ++ nat_to_str (Z.of_nat i) ++ lit "]")) v r -> array_rows name (S i) vs rows ->
      array_rows name i (v :: vs) (r ++ rows)
  with object_rows (name : str) : list (str * value) -> list (list cell) -> Prop :=
  | or_nil : object_rows name [] []
  | or_cons k v vs r rows :
      value_rows name (Some ("."%char :: k)) v r -> object_rows name vs rows ->
      object_rows name ((k, v) :: vs) (r ++ rows).

  (** The rows for traits: in the order of their ids, without the two documentation traits. *)
  Definition documentation_trait : shape_id := SID "smithy.api" "documentation" None.
  Definition external_documentation_trait : shape_id := SID "smithy.api" "externalDocumentation" None.
  Definition listed (id : shape_id) : bool :=
    negb (sid_eqb id documentation_trait) && negb (sid_eqb id external_documentation_trait).
  Definition trait_name (id : shape_id) : str :=
    if ns_eqb (sid_ns id) (lit "smithy.api") then sid_name id else id_text id.
  Definition trait_before (a b : shape_id * option value) : Prop := id_before (fst a) (fst b).
  Inductive each_rows : traits -> list (list cell) -> Prop :=
  | er_nil : each_rows [] []
  | er_hidden id v ts rows : listed id = false -> each_rows ts rows -> each_rows ((id, v) :: ts) rows
  | er_bare id ts rows : listed id = true -> each_rows ts rows ->
      each_rows ((id, None) :: ts) (row (trait_name id) None None :: rows)
  | er_value id v r ts rows : listed id = true -> value_rows (trait_name id) None v r -> each_rows ts rows ->
      each_rows ((id, Some v) :: ts) (r ++ rows).
  Definition traits_rows (ts : traits) (rows : list (list cell)) : Prop :=
    exists sorted, Permutation ts sorted /\ StronglySorted trait_before sorted /\ each_rows sorted rows.
  (** One table for each set of traits with something to show. *)
  Inductive trait_tables : list traits -> list (list (list cell)) -> Prop :=
  | tt_nil : trait_tables [] []
  | tt_none ts l t : traits_rows ts [] -> trait_tables l t -> trait_tables (ts :: l) t
  | tt_some ts l rows t : traits_rows ts rows -> rows <> [] -> trait_tables l t -> trait_tables (ts :: l) (rows :: t).

  (** The traits of a shape and of its members. *)
  Definition members_of (b : shape_kind) : list member_shape :=
    match b with
    | KList mb | KSet mb => [mb]
    | KMap k v => [k; v]
    | KStructure ms | KUnion ms => map snd ms
    | _ => []
    end.
  Definition trait_sets (s : shape) : list traits := ts_traits s :: map ms_traits (members_of (ts_body s)).
  Definition doc_texts (ts : traits) : list str :=
    match hm_get sid_key_eqb documentation_trait ts with Some (Some (VString s)) => [s] | _ => [] end.
  Definition doc_links (ts : traits) : list (list (str * str)) :=
    match hm_get sid_key_eqb external_documentation_trait ts with
    | Some (Some (VObject (e :: vs))) => [map (fun e => (value_display f64_str (snd e), fst e)) (e :: vs)]
    | _ => []
    end.

  (** The label of a shape, and how another shape's text refers to it. *)
  Definition shape_label (id : shape_id) : str :=
    match sid_member id with
    | Some mb => safe_label (sid_name id ++ lit "_" ++ mb) (lit "member")
    | None => safe_label (sid_name id) (lit "shape")
    end.
  Definition refer (from to : shape_id) : inline :=
    if ns_eqb (sid_ns from) (sid_ns to) then Internal (shape_label to) (sid_name to) else Code (id_text to).
  (** Everything a shape refers to, in order; members and lifecycle operations with their names. *)
  Definition named_refer (from : shape_id) (name : str) (to : shape_id) : list inline := [Code name; refer from to].
  Definition expected_mentions (s : shape) : list inline :=
    let id := ts_id s in
    let lifecycle n o := match o with Some t => named_refer id (lit n) t | None => [] end in
    match ts_body s with
    | KList mb | KSet mb => [refer id (ms_target mb)]
    | KMap k v => [refer id (ms_target k); refer id (ms_target v)]
    | KStructure ms | KUnion ms => flat_map (fun e => named_refer id (ms_id (snd e)) (ms_target (snd e))) ms
    | KService sv =>
        map (refer id) (sv_operations sv) ++ map (refer id) (sv_resources sv)
        ++ flat_map (fun e => [Code (id_text (fst e)); Code (snd e)]) (sv_renames sv)
    | KOperation o =>
        map (refer id) (GraphMLSpec.maybe (op_input o) ++ GraphMLSpec.maybe (op_output o) ++ op_errors o)
    | KResource r =>
        lifecycle "create" (rs_create r) ++ lifecycle "put" (rs_put r) ++ lifecycle "read" (rs_read r)
        ++ lifecycle "update" (rs_update r) ++ lifecycle "delete" (rs_delete r) ++ lifecycle "list" (rs_list r)
        ++ map (refer id) (rs_operations r ++ rs_collection_operations r ++ rs_resources r)
    | KSimple _ | KUnresolved => []
    end.

  (** The lines about a shape: what each thing it refers to is for. *)
  Definition headed (t : string) (l : list line) : list line := match l with [] => [] | _ => Title (lit t) :: l end.
  Definition expected_lines (s : shape) : list line :=
    let id := ts_id s in
    let link t := Line [refer id t] in
    let role (n : string) (o : option shape_id) := match o with Some t => [Line [Bold (lit n); Plain (lit ": "); refer id t]] | None => [] end in
    let lifecycle n o := match o with Some t => [Line [Code (lit n); Plain (lit ": "); refer id t]] | None => [] end in
    match ts_body s with
    | KList mb | KSet mb => [Line [Bold (lit "Member type: "); refer id (ms_target mb)]]
    | KMap k v =>
        [Line [Bold (lit "Key type: "); refer id (ms_target k)]; Line [Bold (lit ", value type: "); refer id (ms_target v)]]
    | KStructure ms | KUnion ms =>
        headed "Members" (map (fun e => Line [Code (ms_id (snd e)); Plain (lit ": "); refer id (ms_target (snd e))]) ms)
    | KService sv =>
        [Line [Bold (lit "Service version"); Plain (lit ": "); Plain (sv_version sv)]]
        ++ headed "Operations" (map link (sv_operations sv)) ++ headed "Resources" (map link (sv_resources sv))
        ++ headed "Renames" (map (fun e => Line [Code (id_text (fst e)); Plain (lit " renamed to "); Code (snd e)]) (sv_renames sv))
    | KOperation o =>
        role "Input type" (op_input o) ++ role "Output type" (op_output o)
        ++ match op_errors o with [] => [] | es => Line [Bold (lit "Errors"); Plain (lit ":")] :: map link es end
    | KResource r =>
        headed "Resource Operations"
          (lifecycle "create" (rs_create r) ++ lifecycle "put" (rs_put r) ++ lifecycle "read" (rs_read r)
           ++ lifecycle "update" (rs_update r) ++ lifecycle "delete" (rs_delete r) ++ lifecycle "list" (rs_list r))
        ++ headed "Operations" (map link (rs_operations r))
        ++ headed "Collection Operations" (map link (rs_collection_operations r))
        ++ headed "Resources" (map link (rs_resources r))
    | KSimple _ | KUnresolved => []
    end.

  (** The section about a shape. *)
  Definition section_about (s : shape) (e : titled) : Prop :=
    title_of e = sid_name (ts_id s) ++ lit " (" ++ GraphMLSpec.type_name (ts_body s) ++ lit ")"
    /\ label_of e = Some (shape_label (ts_id s))
    /\ prose (body_blocks e) = flat_map doc_texts (trait_sets s)
    /\ see_also (body_blocks e) = flat_map doc_links (trait_sets s)
    /\ trait_tables (trait_sets s) (tables (body_blocks e))
    /\ mentions (body_blocks e) = expected_mentions s
    /\ lines (body_blocks e) = expected_lines s
    /\ Forall (fun t => t = lit "See also: ") (introductions (body_blocks e))
    /\ Forall (fun c => c = [lit "Trait ID"; lit "Path"; lit "Value"]) (columns (body_blocks e)).

  (** The chapter about a namespace. *)
  Definition resolved (s : shape) : bool := match ts_body s with KUnresolved => false | _ => true end.
  Definition not_after (a b : shape) : Prop := ~ text_before (id_text (ts_id b)) (id_text (ts_id a)).
  Definition chapter_about (m : model) (ns : str) (c : titled) : Prop :=
    title_of c = lit "Namespace " ++ ns /\ label_of c = None
    /\ exists shapes sections,
         Permutation shapes (filter (fun s => resolved s && ns_eqb (sid_ns (ts_id s)) ns) (map snd (m_shapes m)))
         /\ StronglySorted not_after shapes
         /\ by_heading Section2 (body_blocks c) = ([], sections)
         /\ Forall2 section_about shapes sections.
  Definition metadata_chapter (m : model) : list titled :=
    match m_metadata m with
    | [] => []
    | l => [(lit "Metadata", None,
             [Table [lit "Key"; lit "Value"] (map (fun e => [CPlain (fst e); CCode (value_display f64_str (snd e))]) l)])]
    end.

  (** All maps of the model are maps, those of its members' traits too. *)
  Definition maps_ok (m : model) : Prop :=
    model_ok m /\ forall k s mb, In (k, s) (m_shapes m) -> In mb (members_of (ts_body s)) -> traits_ok (ms_traits mb).
  (** The documentation traits are texts or bare, on every resolved shape and its members. *)
  Definition documentable (m : model) : Prop :=
    forall k s ts t v, In (k, s) (m_shapes m) -> ts_body s <> KUnresolved -> In ts (trait_sets s) ->
      In (t, Some v) ts -> sid_key_eqb t documentation_trait = true -> exists text, v = VString text.

  (** No namespace is another with different letter case. *)
  Definition one_spelling (m : model) : Prop :=
    forall k s k' s', In (k, s) (m_shapes m) -> In (k', s') (m_shapes m) ->
      ts_body s <> KUnresolved -> ts_body s' <> KUnresolved ->
      ns_eqb (sid_ns (ts_id s)) (sid_ns (ts_id s')) = true -> sid_ns (ts_id s) = sid_ns (ts_id s').
End Says.

(** The same text but for the order of members and of links. *)
Definition same_section (a b : titled) : Prop :=
  title_of a = title_of b /\ label_of a = label_of b
  /\ Permutation (prose (body_blocks a)) (prose (body_blocks b))
  /\ Permutation (map snd (concat (see_also (body_blocks a)))) (map snd (concat (see_also (body_blocks b))))
  /\ Permutation (tables (body_blocks a)) (tables (body_blocks b))
  /\ Permutation (mentions (body_blocks a)) (mentions (body_blocks b))
  /\ Permutation (lines (body_blocks a)) (lines (body_blocks b)).
Definition sections (c : titled) : list titled := snd (by_heading Section2 (body_blocks c)).
Definition same_chapter (a b : titled) : Prop := title_of a = title_of b /\ Forall2 same_section (sections a) (sections b).
