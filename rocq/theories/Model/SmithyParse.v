(** Model of atelier-smithy/src/parser/smithy.rs: from the pairs of the grammar to a model.
    Every [unexpected!], [expecting!] and [ParserError] is an error; [unwrap] panics. *)
From Verif.Model Require Export SmithyGrammar Builder Json.
From Verif.Model Require Import SelectorParse.

Notation ipair := (pair irule).
(** [for x in l { s = f(s, x)?; }]. *)
Definition fold_result {S A} (f : S -> A -> result S) : list A -> S -> result S :=
  fix go (l : list A) (s : S) : result S :=
    match l with [] => Ok s | x :: l' => match f s x with Ok s' => go l' s' | Err e => Err e | Panic => Panic end end.
(** [ok_or(unreachable)] of two options. *)
Definition both {A B} (fn : string) (a : option A) (b : option B) : result (A * B) :=
  match a, b with Some x, Some y => Ok (x, y) | _, _ => unexpected fn end.
(** [value.as_string().unwrap()] ([is_as!], macros.rs:54-73). *)
Definition as_string (v : value) : result str := match v with VString s => Ok s | _ => Panic end.

Section Parse.
  (** [f64::from_str] of the standard library, on the texts that the rule [number] accepts. *)
  Variable f64_parse : str -> Z.
  Context `{Hasher}.

  (** ** Values *)

  (** [parse_quoted_text], smithy.rs:782-792, and [parse_text_block], 794-804: the first inner pair decides. *)
  Definition idl_text (chars : irule -> bool) (l : list ipair) : result value :=
    match l with
    | i :: _ => if chars (p_rule i) then Ok (VString (p_text i)) else unexpected "parse_quoted_text"
    | [] => unexpected "parse_quoted_text"
    end.
  (** The number, smithy.rs:757-767. *)
  Definition idl_number (t : str) : result value :=
    if existsb (Ascii.eqb ".") t then Ok (VNumber (NFloat (f64_parse t)))
    else match i64_from_str t with
         | Some n => Ok (VNumber (NInteger n))
         | None => Err (EForeign (lit "number format error"))
         end.
  (** [parse_node_object_kvp], smithy.rs:833-853: one inner pair; a quoted key keeps its quotes. [value_of]
      is [parse_node_value]. *)
  Definition kvp_step (value_of : ipair -> result value) (s : option str * option value) (i : ipair)
    : result (option str * option value) :=
    match i with
    | Pair r t _ =>
        match r with
        | I_identifier | I_quoted_text => Ok (Some t, snd s)
        | I_node_value => v <- value_of i ;; Ok (fst s, Some v)
        | _ => unexpected "parse_node_object_kvp"
        end
    end.
  (** [parse_node_value], smithy.rs:751-780, with [parse_node_array], 806-816, and [parse_node_object], 818-831. *)
  Fixpoint idl_value (p : ipair) : result value :=
    match p with
    | Pair _ _ [] => Panic
    | Pair _ _ (Pair r t inner :: _) =>
        match r with
        | I_node_array =>
            vs <- fold_result (fun vs q =>
                    match q with
                    | Pair rq _ _ =>
                        match rq with
                        | I_node_value => v <- idl_value q ;; Ok (vs ++ [v])
                        | _ => unexpected "parse_node_array"
                        end
                    end) inner [] ;;
            Ok (VArray vs)
        | I_node_object =>
            vs <- fold_result (fun vs q =>
                    match q with
                    | Pair rq _ kv =>
                        match rq with
                        | I_node_object_kvp =>
                            s <- fold_result (kvp_step idl_value) kv (None, None) ;;
                            e <- both "parse_node_object_kvp" (fst s) (snd s) ;;
                            Ok (hm_insert str_eqb (fst e) (snd e) vs)
                        | _ => unexpected "parse_node_object"
                        end
                    end) inner [] ;;
            Ok (VObject vs)
        | I_number => idl_number t
        | I_kw_true => Ok (VBoolean true)
        | I_kw_false => Ok (VBoolean false)
        | I_kw_null => Ok VNone
        | I_shape_id => Ok (VString t)
        | I_text_block => idl_text (fun r => match r with I_block_quoted_chars => true | _ => false end) inner
        | I_quoted_text => idl_text (fun r => match r with I_quoted_chars => true | _ => false end) inner
        | _ => unexpected "parse_node_value"
        end
    end.
  (** [parse_node_object_kvp], smithy.rs:833-853, and [parse_node_object], 818-831, on their own. *)
  Definition idl_kvp (p : ipair) : result (str * value) :=
    s <- fold_result (kvp_step idl_value) (p_inner p) (None, None) ;; both "parse_node_object_kvp" (fst s) (snd s).
  Definition idl_object (p : ipair) : result (list (str * value)) :=
    fold_result (fun vs q =>
      match p_rule q with
      | I_node_object_kvp => e <- idl_kvp q ;; Ok (hm_insert str_eqb (fst e) (snd e) vs)
      | _ => unexpected "parse_node_object"
      end) (p_inner p) [].

  (** [parse_control_section], smithy.rs:99-112, and [parse_metadata_section], 114-127. *)
  Definition idl_statements (is_statement : irule -> bool) (p : ipair) : result (list (str * value)) :=
    fold_result (fun vs q =>
      if is_statement (p_rule q)
      then e <- idl_kvp q ;; Ok (hm_insert str_eqb (fst e) (snd e) vs)
      else unexpected "parse_control_section") (p_inner p) [].
  Definition control_section : ipair -> result (list (str * value)) :=
    idl_statements (fun r => match r with I_control_statement => true | _ => false end).
  Definition metadata_section : ipair -> result (list (str * value)) :=
    idl_statements (fun r => match r with I_metadata_statement => true | _ => false end).

  (** ** Traits *)

  (** [char::is_whitespace] (the Unicode property White_Space) and [str::trim_start] of the Rust core library. *)
  Definition is_whitespace (c : N) : bool :=
    ((9 <=? c) && (c <=? 13) || (c =? 32) || (c =? 133) || (c =? 160) || (c =? 5760)
     || (8192 <=? c) && (c <=? 8202) || (c =? 8232) || (c =? 8233) || (c =? 8239) || (c =? 8287) || (c =? 12288))%N.
  Fixpoint trim_upto (n : nat) (s : str) : str :=
    match n, decode1 s with
    | S n', Some (c, s') => if is_whitespace c then trim_upto n' s' else s
    | _, _ => s
    end.
  Definition trim_start (s : str) : str := trim_upto (List.length s) s.
  (** [parse_documentation_text], smithy.rs:273-282. *)
  Definition documentation_text (p : ipair) : str := trim_start (p_text p).
  (** [parse_trait_structure_kvp], smithy.rs:340-373: here a quoted key loses its quotes. *)
  Definition trait_kvp_step (s : option str * option value) (i : ipair) : result (option str * option value) :=
    match p_rule i with
    | I_quoted_text =>
        k <- fold_result (fun (k : option str) q =>
               match p_rule q with
               | I_quoted_chars => Ok (Some (p_text q))
               | _ => unexpected "parse_trait_structure_kvp"
               end) (p_inner i) (fst s) ;;
        match k with None => unexpected "parse_trait_structure_kvp" | Some _ => Ok (k, snd s) end
    | I_identifier => Ok (Some (p_text i), snd s)
    | I_node_value => v <- idl_value i ;; Ok (fst s, Some v)
    | _ => unexpected "parse_trait_structure_kvp"
    end.
  Definition trait_kvp (p : ipair) : result (str * value) :=
    s <- fold_result trait_kvp_step (p_inner p) (None, None) ;; both "parse_a_trait" (fst s) (snd s).
  (** [parse_a_trait], smithy.rs:298-337. *)
  Definition a_trait_step (s : option str * option value * list (str * value)) (i : ipair)
    : result (option str * option value * list (str * value)) :=
    let '(id, v, ms) := s in
    match p_rule i with
    | I_shape_id => Ok (Some (p_text i), v, ms)
    | I_node_value => x <- idl_value i ;; Ok (id, Some x, ms)
    | I_trait_structure_kvp => e <- trait_kvp i ;; Ok (id, v, hm_insert str_eqb (fst e) (snd e) ms)
    | _ => unexpected "parse_a_trait"
    end.
  Definition a_trait (p : ipair) : result trait_builder :=
    s <- fold_result a_trait_step (p_inner p) (None, None, []) ;;
    let '(id, v, ms) := s in
    match v, ms with
    | Some _, _ :: _ => unexpected "parse_a_trait"
    | _, _ =>
        let v := match v, ms with None, _ :: _ => Some (VObject ms) | _, _ => v end in
        match id with
        | Some id => trait_new id (Some match v with Some x => x | None => VObject [] end)
        | None => unexpected "parse_a_trait"
        end
    end.
  (** [parse_trait_statements], smithy.rs:284-296. *)
  Definition trait_statements (p : ipair) : result (list trait_builder) :=
    fold_result (fun ts q => match p_rule q with
                             | I_a_trait => t <- a_trait q ;; Ok (ts ++ [t])
                             | _ => unexpected "parse_trait_statements"
                             end) (p_inner p) [].
  (** [apply_traits], smithy.rs:862-869, with [documentation], builder/traits.rs:64-66: the traits in the order in
      which they are applied. *)
  Definition newline : str := [ascii_of_N 10].
  Definition applied (doc : list str) (ts : list trait_builder) : result (list trait_builder) :=
    match doc with
    | [] => Ok ts
    | _ => d <- trait_new (lit "smithy.api#documentation") (Some (VString (join newline doc))) ;; Ok (d :: ts)
    end.

  (** ** Shapes *)

  (** [parse_simple_shape_statement], smithy.rs:375-406. *)
  Definition simple_type (r : irule) : option simple :=
    match r with
    | I_type_blob => Some SBlob | I_type_boolean => Some SBoolean | I_type_document => Some SDocument
    | I_type_string => Some SString | I_type_byte => Some SByte | I_type_short => Some SShort
    | I_type_integer => Some SInteger | I_type_long => Some SLong | I_type_float => Some SFloat
    | I_type_double => Some SDouble | I_type_big_integer => Some SBigInteger
    | I_type_big_decimal => Some SBigDecimal | I_type_timestamp => Some STimestamp
    | _ => None
    end.
  Definition simple_statement (p : ipair) : result shape_builder :=
    s <- fold_result (fun (s : option str * option simple) q =>
           match p_rule q, simple_type (p_rule q) with
           | I_identifier, _ => Ok (Some (p_text q), snd s)
           | _, Some t => Ok (fst s, Some t)
           | _, None => unexpected "parse_simple_shape_statement"
           end) (p_inner p) (None, None) ;;
    e <- both "parse_simple_shape_statement" (fst s) (snd s) ;; simple_new (fst e) (snd e).
  (** [parse_shape_member_kvp], smithy.rs:504-535. *)
  Record member_parts := MP { mp_doc : list str; mp_traits : list trait_builder; mp_id : option str; mp_target : option str }.
  Definition member_step (s : member_parts) (i : ipair) : result member_parts :=
    match p_rule i with
    | I_documentation_text => Ok (MP (mp_doc s ++ [documentation_text i]) (mp_traits s) (mp_id s) (mp_target s))
    | I_trait_statements => ts <- trait_statements i ;; Ok (MP (mp_doc s) ts (mp_id s) (mp_target s))
    | I_identifier => Ok (MP (mp_doc s) (mp_traits s) (Some (p_text i)) (mp_target s))
    | I_shape_id => Ok (MP (mp_doc s) (mp_traits s) (mp_id s) (Some (p_text i)))
    | _ => unexpected "parse_shape_member_kvp"
    end.
  Definition shape_member (p : ipair) : result member_builder :=
    s <- fold_result member_step (p_inner p) (MP [] [] None None) ;;
    e <- both "parse_shape_member_kvp" (mp_id s) (mp_target s) ;;
    m <- member_new (fst e) (snd e) ;;
    ts <- applied (mp_doc s) (mp_traits s) ;;
    Ok (MB (mb_name m) ts (mb_target m)).
  (** [parse_shape_members], smithy.rs:489-502; [parse_membered_statement], 471-487. *)
  Definition shape_members (p : ipair) : result (list member_builder) :=
    fold_result (fun ms q => match p_rule q with
                             | I_shape_member_kvp => m <- shape_member q ;; Ok (ms ++ [m])
                             | _ => unexpected "parse_shape_members"
                             end) (p_inner p) [].
  Definition membered_statement (p : ipair) : result (str * list member_builder) :=
    x <- next (p_inner p) ;; let (n, more) := x in
    match p_rule n with
    | I_identifier =>
        y <- next more ;; let (q, _) := y in
        match p_rule q with
        | I_shape_members => ms <- shape_members q ;; Ok (p_text n, ms)
        | _ => unexpected "parse_membered_statement"
        end
    | _ => unexpected "parse_membered_statement"
    end.
  (** [parse_list_statement], smithy.rs:408-426; used for sets as well, which makes its builder a set in
      [ModelBuilder::set]. [ListBuilder::with_target], builder/shapes.rs:339-345: what was applied to the member
      is lost. *)
  Definition list_statement (mk : member_builder -> builder_body) (p : ipair) : result shape_builder :=
    x <- membered_statement p ;;
    match snd x with
    | [m] =>
        if ident_eqb (mb_name m) (lit "member")
        then n <- unwrap (shape_name_from_str (fst x)) ;; Ok (SB n [] (mk (MB (lit "member") [] (mb_target m))))
        else unexpected "parse_list_statement"
    | _ => unexpected "parse_list_statement"
    end.
  (** [Display for ShapeName], builder/id.rs:37-48. *)
  Definition shape_name_display (n : shape_name) : str := match n with Qualified i => sid_display i | Local n => n end.
  (** [parse_map_statement], smithy.rs:428-449. *)
  Definition map_step (s : option str * option str) (m : member_builder) : result (option str * option str) :=
    if ident_eqb (mb_name m) (lit "key") then Ok (Some (shape_name_display (mb_target m)), snd s)
    else if ident_eqb (mb_name m) (lit "value") then Ok (fst s, Some (shape_name_display (mb_target m)))
    else unexpected "parse_map_statement".
  Definition map_statement (p : ipair) : result shape_builder :=
    x <- membered_statement p ;;
    s <- fold_result map_step (snd x) (None, None) ;;
    e <- both "parse_map_statement" (fst s) (snd s) ;; map_new (fst x) (fst e) (snd e).
  (** [parse_structure_statement], smithy.rs:451-459, and [parse_union_statement], 461-469. *)
  Definition members_statement (mk : list member_builder -> builder_body) (p : ipair) : result shape_builder :=
    x <- membered_statement p ;;
    n <- unwrap (shape_name_from_str (fst x)) ;; Ok (SB n [] (mk (snd x))).

  (** [parse_id_and_object], smithy.rs:708-725. *)
  Definition id_and_object (p : ipair) : result (str * list (str * value)) :=
    s <- fold_result (fun (s : option str * option (list (str * value))) q =>
           match p_rule q with
           | I_identifier => Ok (Some (p_text q), snd s)
           | I_node_object => o <- idl_object q ;; Ok (fst s, Some o)
           | _ => unexpected "parse_id_and_object"
           end) (p_inner p) (None, None) ;;
    both "parse_id_and_object" (fst s) (snd s).
  (** [ShapeName::from_str(&value.as_string().unwrap()).unwrap()], as in [ServiceBuilder::operation],
      builder/shapes.rs:512-515, and the other setters; and the loops over arrays of them. *)
  Definition target_of (v : value) : result shape_name := s <- as_string v ;; unwrap (shape_name_from_str s).
  Definition targets_of (v : value) : result (list shape_name) :=
    match v with VArray vs => map_result target_of vs | _ => unexpected "targets" end.
  (** [parse_service_statement], smithy.rs:537-583: the entries of the object in iteration order. *)
  Definition service_step (s : service_builder) (e : str * value) : result service_builder :=
    if str_eqb (fst e) (lit "version") then Ok s
    else if str_eqb (fst e) (lit "operations")
    then l <- targets_of (snd e) ;; Ok (SvB (svb_version s) (svb_operations s ++ l) (svb_resources s) (svb_renames s))
    else if str_eqb (fst e) (lit "resources")
    then l <- targets_of (snd e) ;; Ok (SvB (svb_version s) (svb_operations s) (svb_resources s ++ l) (svb_renames s))
    else unexpected "parse_service_statement".
  Definition service_statement (p : ipair) : result shape_builder :=
    x <- id_and_object p ;;
    match hm_get str_eqb (lit "version") (snd x) with
    | None => Panic
    | Some v =>
        v <- as_string v ;;
        n <- unwrap (shape_name_from_str (fst x)) ;;
        s <- fold_result service_step (snd x) (SvB v [] [] []) ;;
        Ok (SB n [] (BService s))
    end.
  (** [parse_operation_statement], smithy.rs:585-622. *)
  Definition operation_step (o : operation_builder) (e : str * value) : result operation_builder :=
    if str_eqb (fst e) (lit "input")
    then t <- target_of (snd e) ;; Ok (OpB (Some t) (opb_output o) (opb_errors o))
    else if str_eqb (fst e) (lit "output")
    then t <- target_of (snd e) ;; Ok (OpB (opb_input o) (Some t) (opb_errors o))
    else if str_eqb (fst e) (lit "errors")
    then l <- targets_of (snd e) ;; Ok (OpB (opb_input o) (opb_output o) (opb_errors o ++ l))
    else unexpected "parse_operation_statement".
  Definition operation_statement (p : ipair) : result shape_builder :=
    x <- id_and_object p ;;
    n <- unwrap (shape_name_from_str (fst x)) ;;
    o <- fold_result operation_step (snd x) (OpB None None []) ;;
    Ok (SB n [] (BOperation o)).
  (** [parse_resource_statement], smithy.rs:624-706; [ResourceBuilder::identifier], builder/shapes.rs:644-650, inserts
      into a [HashMap<Identifier, ShapeName>]. *)
  Definition resource_step (r : resource_builder) (e : str * value) : result resource_builder :=
    let '(RsB ids c pu re u d l ops cops rs) := r in
    let key (k : string) : bool := str_eqb (fst e) (lit k) in
    if key "identifiers"%string then
      match snd e with
      | VObject vs =>
          ids' <- fold_result (fun ids x =>
                    t <- as_string (snd x) ;; i <- unwrap (ident_from_str (fst x)) ;; n <- unwrap (shape_name_from_str t) ;;
                    Ok (hm_insert ident_key_eqb i n ids)) vs ids ;;
          Ok (RsB ids' c pu re u d l ops cops rs)
      | _ => unexpected "parse_resource_statement"
      end
    else if key "create"%string then t <- target_of (snd e) ;; Ok (RsB ids (Some t) pu re u d l ops cops rs)
    else if key "put"%string then t <- target_of (snd e) ;; Ok (RsB ids c (Some t) re u d l ops cops rs)
    else if key "read"%string then t <- target_of (snd e) ;; Ok (RsB ids c pu (Some t) u d l ops cops rs)
    else if key "update"%string then t <- target_of (snd e) ;; Ok (RsB ids c pu re (Some t) d l ops cops rs)
    else if key "delete"%string then t <- target_of (snd e) ;; Ok (RsB ids c pu re u (Some t) l ops cops rs)
    else if key "list"%string then t <- target_of (snd e) ;; Ok (RsB ids c pu re u d (Some t) ops cops rs)
    else if key "operations"%string then
      ts <- targets_of (snd e) ;; Ok (RsB ids c pu re u d l (ops ++ ts) cops rs)
    else if key "collectionOperations"%string then
      ts <- targets_of (snd e) ;; Ok (RsB ids c pu re u d l ops (cops ++ ts) rs)
    else if key "resources"%string then
      ts <- targets_of (snd e) ;; Ok (RsB ids c pu re u d l ops cops (rs ++ ts))
    else unexpected "parse_resource_statement".
  Definition resource_statement (p : ipair) : result shape_builder :=
    x <- id_and_object p ;;
    n <- unwrap (shape_name_from_str (fst x)) ;;
    r <- fold_result resource_step (snd x) (RsB [] None None None None None None [] [] []) ;;
    Ok (SB n [] (BResource r)).

  (** The statements that make a shape, smithy.rs:217-261. *)
  Definition body_statement (p : ipair) : option (result shape_builder) :=
    match p_rule p with
    | I_simple_shape_statement => Some (simple_statement p)
    | I_list_statement => Some (list_statement BList p)
    | I_set_statement => Some (list_statement BSet p)
    | I_map_statement => Some (map_statement p)
    | I_structure_statement => Some (members_statement BStructure p)
    | I_union_statement => Some (members_statement BUnion p)
    | I_service_statement => Some (service_statement p)
    | I_operation_statement => Some (operation_statement p)
    | I_resource_statement => Some (resource_statement p)
    | _ => None
    end.
  (** [parse_shape_statement], smithy.rs:202-271. The grammar never puts an [apply_statement] inside a
      [shape_statement]: the arm at 262-265 with [parse_apply_statement], 727-749, is dead and left out. *)
  Definition statement_step (s : list str * list trait_builder * builder) (q : ipair)
    : result (list str * list trait_builder * builder) :=
    let '(doc, ts, b) := s in
    match p_rule q with
    | I_documentation_text => Ok (doc ++ [documentation_text q], ts, b)
    | I_trait_statements => ts' <- trait_statements q ;; Ok (doc, ts', b)
    | I_EOI => Ok s
    | _ =>
        match body_statement q with
        | Some r =>
            sb <- r ;; all <- applied doc ts ;; Ok (doc, ts, bd_insert b (SB (sb_name sb) all (sb_body sb)))
        | None => unexpected "parse_shape_statement"
        end
    end.
  Definition shape_statement (p : ipair) (b : builder) : result builder :=
    s <- fold_result statement_step (p_inner p) ([], [], b) ;; Ok (snd s).
  (** [parse_shape_statements], smithy.rs:185-200: an [apply_statement] is unexpected. *)
  Definition shape_statements (p : ipair) (b : builder) : result builder :=
    fold_result (fun b q => match p_rule q with
                            | I_shape_statement => shape_statement q b
                            | I_EOI => Ok b
                            | _ => unexpected "parse_shape_statements"
                            end) (p_inner p) b.

  (** ** The document *)

  (** [parse_use_section], smithy.rs:165-183. *)
  Definition use_section (p : ipair) (b : builder) : result builder :=
    fold_result (fun b q =>
      match p_rule q with
      | I_use_statement =>
          x <- next (p_inner q) ;; let (i, _) := x in
          match p_rule i with
          | I_absolute_root_shape_id => bd_uses b (p_text i)
          | _ => unexpected "parse_use_section"
          end
      | _ => unexpected "parse_use_section"
      end) (p_inner p) b.
  (** [parse_namespace_statement], smithy.rs:152-163. *)
  Definition namespace_statement (v : version) (p : ipair) : result builder :=
    x <- next (p_inner p) ;; let (i, _) := x in
    match p_rule i with
    | I_namespace => builder_new v (p_text i)
    | _ => unexpected "parse_namespace_statement"
    end.
  (** [parse_shape_section], smithy.rs:129-150. *)
  Definition shape_section (v : version) (p : ipair) : result (option builder) :=
    fold_result (fun (ob : option builder) q =>
      match p_rule q with
      | I_namespace_statement => b <- namespace_statement v q ;; Ok (Some b)
      | I_use_section => match ob with Some b => b' <- use_section q b ;; Ok (Some b') | None => Panic end
      | I_shape_statements => match ob with Some b => b' <- shape_statements q b ;; Ok (Some b') | None => Panic end
      | _ => unexpected "parse_shape_section"
      end) (p_inner p) None.
  (** [parse_idl], smithy.rs:65-97, with [meta_data_from], builder/mod.rs:206-211; [Model::default] has version 1.0. *)
  Definition next_section {A} (is_section : irule -> bool) (f : ipair -> result A) (l : list ipair)
    : result (A * list ipair) :=
    x <- next l ;; let (p, more) := x in
    if is_section (p_rule p) then a <- f p ;; Ok (a, more) else unexpected "parse_idl".
  Definition parse_idl (p : ipair) : result model :=
    match p_rule p with
    | I_idl =>
        c <- next_section (fun r => match r with I_control_section => true | _ => false end) control_section (p_inner p) ;;
        v <- match hm_get str_eqb (lit "version") (fst c) with
             | Some (VString v) => version_from_str v
             | _ => Ok V10
             end ;;
        m <- next_section (fun r => match r with I_metadata_section => true | _ => false end) metadata_section (snd c) ;;
        s <- next_section (fun r => match r with I_shape_section => true | _ => false end) (shape_section v) (snd m) ;;
        match fst s with
        | None => Ok (model_new V10)
        | Some b => build (fold_left (fun b e => bd_metadata_insert b (fst e) (snd e)) (fst m) b)
        end
    | _ => unexpected "parse_idl"
    end.

  (** [parse_model], smithy.rs:43-47. The fuel never runs out: see C39. *)
  Definition smithy_fuel (s : str) : nat := (S (length s)) * 4000.
  Definition parse_model (s : str) : result model :=
    match parse_rule smithy_grammar (smithy_fuel s) I_idl s with
    | None => Panic
    | Some None => Err (EDeserialization (lit "pest"))
    | Some (Some pairs) => x <- next pairs ;; parse_idl (fst x)
    end.
End Parse.
