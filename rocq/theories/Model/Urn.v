(** Model of atelier-rdf/src/urn.rs: shape ids as URNs. *)
From Verif.Model Require Export Identity.

(** An [IRI] of the crate rdftk_iri (not part of the repository): the five parts of RFC 3986.
    Simplification: [IRI::from_str] is the splitting of RFC 3986, appendix B; the crate's further
    checks of each part are not modelled. *)
Record iri := IRI {
  iri_scheme : option str; iri_authority : option str; iri_path : str;
  iri_query : option str; iri_fragment : option str }.
Definition slash : ascii := "/".
Definition colon : ascii := ":".
Definition qmark : ascii := "?".
Definition one_of (l : list ascii) (c : ascii) : bool := existsb (Ascii.eqb c) l.
(** The longest prefix without the characters [stop], and the rest. *)
Fixpoint break_at (stop : list ascii) (s : str) : str * str :=
  match s with
  | [] => ([], [])
  | c :: s' => if one_of stop c then ([], s) else let (a, b) := break_at stop s' in (c :: a, b)
  end.
(** The optional scheme: one or more characters other than : / ? # before a colon. *)
Definition split_scheme (s : str) : option str * str :=
  match break_at [colon; slash; qmark; hash_ch] s with
  | (c :: a, d :: b) => if Ascii.eqb d colon then (Some (c :: a), b) else (None, s)
  | _ => (None, s)
  end.
(** The optional authority: after two slashes, up to one of / ? #. *)
Definition split_authority (s : str) : option str * str :=
  match s with
  | c :: d :: b =>
      if Ascii.eqb c slash && Ascii.eqb d slash
      then let (a, r) := break_at [slash; qmark; hash_ch] b in (Some a, r)
      else (None, s)
  | _ => (None, s)
  end.
(** [IRI::from_str]: scheme, authority, path up to ? or #, query up to #, fragment. *)
Definition iri_from_str (s : str) : iri :=
  let (sch, s1) := split_scheme s in
  let (auth, s2) := split_authority s1 in
  let (path, s3) := break_at [qmark; hash_ch] s2 in
  let (query, s4) :=
    match s3 with
    | c :: b => if Ascii.eqb c qmark then let (q, r) := break_at [hash_ch] b in (Some q, r) else (None, s3)
    | [] => (None, [])
    end in
  let frag := match s4 with _ :: b => Some b | [] => None end in
  IRI sch auth path query frag.

(** [str::replace(char, &str)] with a one-character replacement. *)
Definition replace_ch (a b : ascii) (s : str) : str := map (fun c => if Ascii.eqb c a then b else c) s.
(** URN_NID, urn.rs:108. *)
Definition urn_nid : str := "smithy:".
(** [shape_to_iri], urn.rs:36-53. *)
Definition shape_to_iri (id : shape_id) : iri :=
  iri_from_str (lit "urn:" ++ urn_nid ++ replace_ch dollar slash (replace_ch hash_ch colon (sid_display id))).
(** [str::strip_prefix]. *)
Fixpoint strip_prefix (p s : str) : option str :=
  match p, s with
  | [], _ => Some s
  | a :: p', c :: s' => if Ascii.eqb a c then strip_prefix p' s' else None
  | _ :: _, [] => None
  end.
(** [iri_to_shape], urn.rs:66-98; its error strings are represented by [EForeign]. *)
Definition urn_char (c : ascii) : bool :=
  is_alnum c || Ascii.eqb c underscore || Ascii.eqb c dot || Ascii.eqb c colon || Ascii.eqb c slash.
Definition iri_to_shape (i : iri) : result shape_id :=
  match iri_scheme i with
  | Some s =>
      if str_eqb s (lit "urn") then
        match strip_prefix urn_nid (iri_path i) with
        | Some path =>
            if forallb urn_char path then
              match sid_from_str (replace_ch slash dollar (replace_ch colon hash_ch path)) with
              | Ok id => Ok id
              | _ => Err (EForeign (lit "Could not parse into a Shape ID"))
              end
            else Err (EForeign (lit "Smithy URN contains invalid characters"))
        | None => Err (EForeign (lit "Not a Smithy URN"))
        end
      else Err (EForeign (lit "Not a URN"))
  | None => Err (EForeign (lit "Not a URN"))
  end.
(** [is_shape_iri], urn.rs:58-60. *)
Definition is_shape_iri (i : iri) : bool := is_ok (iri_to_shape i).
