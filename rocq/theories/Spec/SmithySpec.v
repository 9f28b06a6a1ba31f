(** Which models can be written in the Smithy IDL such that the document can be read again, and what comes
    back: written from the Smithy 1.0 specification of the IDL, as restricted by atelier-smithy/src/smithy.pest;
    no reference to the parser or the writer. *)
From Verif.Model Require Import SemModel.
From Verif.Model Require Peg.
From Verif.Spec Require Export ModelSpec SelectorSpec BuilderSpec.

(** ** Texts and values *)

(** Text that stands for itself between double quotes: no control characters, quotes or backslashes, nothing
    beyond U+10FFF. *)
Inductive plain_text : str -> Prop :=
| plain_nil : plain_text []
| plain_cons s c s' : Peg.decode1 s = Some (c, s') ->
    (32 <= c)%N -> c <> 34%N -> c <> 92%N -> (c <= 69631)%N -> plain_text s' -> plain_text s.
Definition quoted (s : str) : str := dquote :: s ++ [dquote].
Definition dotted_name (n : str) : Prop :=
  exists ids, ids <> [] /\ Forall short_identifier ids /\ n = join ["."%char] ids.
(** A name that is not taken for one of the keywords [true], [false] and [null]. *)
Definition no_keyword (n : str) : Prop :=
  forall r, n <> lit "true" ++ r /\ n <> lit "false" ++ r /\ n <> lit "null" ++ r.

Section Values.
  (** [Display for f64], [Debug for str] and [FromStr for f64]. *)
  Variables (f64_str : Z -> str) (debug_str : str -> str) (f64_parse : str -> Z).

  Definition text_writable (s : str) : Prop := plain_text s /\ debug_str s = quoted s.
  Inductive value_writable : value -> Prop :=
  | vw_array l : Forall value_writable l -> value_writable (VArray l)
  | vw_object l : distinct str_eqb l -> Forall (fun e => short_identifier (fst e) /\ value_writable (snd e)) l ->
      value_writable (VObject l)
  | vw_int n : (-9223372036854775808 <= n <= 9223372036854775807)%Z -> value_writable (VNumber (NInteger n))
  | vw_float b : decimal (f64_str b) -> f64_parse (f64_str b) = b -> value_writable (VNumber (NFloat b))
  | vw_bool b : value_writable (VBoolean b)
  | vw_string s : text_writable s -> value_writable (VString s).

  (** ** Models *)
  Section WithHasher.
    Context `{Hasher}.
    Variables (ns : str) (m : model).

    (** What is written: imports, and the shapes of the namespace. *)
    Definition is_import (s : shape) : bool := match ts_body s, ts_traits s with KUnresolved, [] => true | _, _ => false end.
    Definition is_own (s : shape) : bool :=
      match ts_body s with KUnresolved => false | _ => str_eqb (lower (sid_ns (ts_id s))) (lower ns) end.
    Definition written : list shape := filter (fun s => is_import s || is_own s) (map snd (m_shapes m)).

    Definition imports (id : shape_id) : Prop := exists s, In s written /\ is_import s = true /\ ts_id s = id.
    Definition owns (id : shape_id) : Prop := exists s, In s written /\ is_own s = true /\ ts_id s = id.
    Definition not_imported (n : str) : Prop := forall i, imports i -> ~ same_name (sid_name i) n.
    Definition not_owned (n : str) : Prop := forall i, owns i -> ~ same_name (sid_name i) n.
    (** The bare name of [id] means [id] in the written document. *)
    Inductive found (is_trait : bool) : shape_id -> Prop :=
    | found_import id :
        imports id -> (forall i, imports i -> same_name (sid_name i) (sid_name id) -> i = id) -> found is_trait id
    | found_own id : owns id -> not_imported (sid_name id) -> found is_trait id
    | found_prelude n : in_prelude is_trait n -> not_imported n -> not_owned n ->
        found is_trait (SID (lit "smithy.api") n None).

    Definition local (id : shape_id) : Prop := short_identifier (sid_name id) /\ found false id.
    (** A name inside a value. *)
    Definition local_value (id : shape_id) : Prop := local id /\ no_keyword (sid_name id).
    Definition absolute (id : shape_id) : Prop :=
      dotted_name (sid_ns id) /\ short_identifier (sid_name id) /\ sid_member id = None.
    Definition opt_local_value (o : option shape_id) : Prop := match o with Some i => local_value i | None => True end.

    (** Traits of the namespace and of the prelude are written without their namespace. *)
    Definition bare_trait (id : shape_id) : Prop := same_name (sid_ns id) ns \/ same_name (sid_ns id) (lit "smithy.api").
    Definition trait_writable (t : shape_id * option value) : Prop :=
      (bare_trait (fst t) /\ short_identifier (sid_name (fst t)) /\ found true (fst t)
       \/ ~ bare_trait (fst t) /\ absolute (fst t))
      /\ match snd t with Some v => value_writable v | None => True end.
    Definition traits_writable (ts : traits) : Prop := distinct sid_key_eqb ts /\ Forall trait_writable ts.
    Definition members_writable (ms : members) : Prop :=
      distinct ident_key_eqb (map (fun e => (ms_id (snd e), snd e)) ms)
      /\ Forall (fun e => short_identifier (ms_id (snd e)) /\ traits_writable (ms_traits (snd e)) /\ local (ms_target (snd e))) ms.
    Definition body_writable (k : shape_kind) : Prop :=
      match k with
      | KSimple _ | KUnresolved => True
      | KList x | KSet x => absolute (ms_target x)
      | KMap k v => local (ms_target k) /\ local (ms_target v)
      | KStructure ms | KUnion ms => members_writable ms
      | KService sv =>
          sv_version sv <> [] /\ text_writable (sv_version sv)
          /\ Forall local_value (sv_operations sv) /\ Forall local_value (sv_resources sv)
      | KOperation o =>
          opt_local_value (op_input o) /\ opt_local_value (op_output o) /\ Forall local_value (op_errors o)
      | KResource r =>
          distinct ident_key_eqb (rs_identifiers r)
          /\ Forall (fun e => short_identifier (fst e) /\ local_value (snd e)) (rs_identifiers r)
          /\ Forall opt_local_value [rs_create r; rs_put r; rs_read r; rs_update r; rs_delete r; rs_list r]
          /\ Forall local_value (rs_operations r ++ rs_collection_operations r ++ rs_resources r)
      end.
    Definition own_writable (s : shape) : Prop :=
      (exists n, ts_id s = SID ns n None /\ short_identifier n /\ not_imported n)
      /\ traits_writable (ts_traits s) /\ body_writable (ts_body s).
    Definition model_writable : Prop :=
      dotted_name ns
      /\ distinct str_eqb (m_metadata m)
      /\ Forall (fun e => plain_text (fst e) /\ value_writable (snd e) /\ forall l, snd e <> VObject l) (m_metadata m)
      /\ distinct sid_key_eqb (map (fun s => (ts_id s, s)) written)
      /\ NoDup (map (fun s => lower (sid_name (ts_id s))) (filter is_own written))
      /\ Forall (fun s => is_import s = true -> absolute (ts_id s)) written
      /\ Forall (fun s => is_own s = true -> own_writable s) written
      (* no unresolved shape of the namespace has traits *)
      /\ Forall (fun s => ts_body s = KUnresolved -> same_name (sid_ns (ts_id s)) ns -> ts_traits s = []) (map snd (m_shapes m)).
  End WithHasher.
End Values.

(** ** What comes back *)

(** A trait without a value gets the empty object. *)
Definition trait_back (t : shape_id * option value) : shape_id * option value :=
  (fst t, Some match snd t with Some v => v | None => VObject [] end).
Definition member_back (x : member_shape) : member_shape := MS (ms_id x) (map trait_back (ms_traits x)) (ms_target x).
(** Members of lists and maps lose their traits. *)
Definition plain_member (n : string) (x : member_shape) : member_shape := MS (lit n) [] (ms_target x).
(** Sets become lists; services lose their renames. *)
Definition body_back (k : shape_kind) : shape_kind :=
  match k with
  | KSimple _ | KUnresolved | KOperation _ | KResource _ => k
  | KList x | KSet x => KList (plain_member "member" x)
  | KMap k v => KMap (plain_member "key" k) (plain_member "value" v)
  | KStructure ms => KStructure (map (fun e => (ms_id (snd e), member_back (snd e))) ms)
  | KUnion ms => KUnion (map (fun e => (ms_id (snd e), member_back (snd e))) ms)
  | KService sv => KService (Service (sv_version sv) (sv_operations sv) (sv_resources sv) [])
  end.
Definition shape_back (s : shape) : shape := Shape (ts_id s) (map trait_back (ts_traits s)) (body_back (ts_body s)).
(** Metadata keys come back with quotes around them. *)
Definition metadata_back (e : str * value) : str * value := (quoted (fst e), snd e).

(** ** Models that lose nothing *)
Definition traits_kept (ts : traits) : Prop := Forall (fun t => snd t <> None) ts.
Definition member_kept (n : string) (x : member_shape) : Prop := ms_id x = lit n /\ ms_traits x = [].
Definition body_kept (k : shape_kind) : Prop :=
  match k with
  | KSimple _ | KUnresolved | KOperation _ | KResource _ => True
  | KList x => member_kept "member" x
  | KSet _ => False
  | KMap k v => member_kept "key" k /\ member_kept "value" v
  | KStructure ms | KUnion ms => Forall (fun e => fst e = ms_id (snd e) /\ traits_kept (ms_traits (snd e))) ms
  | KService sv => sv_renames sv = []
  end.
Definition all_kept (ns : str) (m : model) : Prop :=
  m_metadata m = []
  /\ Forall (fun e => fst e = ts_id (snd e) /\ (is_import (snd e) = true \/ is_own ns (snd e) = true)
                      /\ traits_kept (ts_traits (snd e)) /\ body_kept (ts_body (snd e))) (m_shapes m).
