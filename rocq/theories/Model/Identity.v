(** Model of atelier-core/src/model/identity.rs. *)
From Verif.Model Require Export Regex.

(** [[_[[:alnum:]]]], identity.rs:92 ([[:alpha:]]/[[:alnum:]] are ASCII classes in the regex crate). *)
Definition cls_word (c : ascii) : bool := Ascii.eqb underscore c || is_alnum c.

(** [_*[[:alpha:]][_[[:alnum:]]]*], the core of RE_IDENTIFIER, identity.rs:92. *)
Definition re_ident : regex :=
  RCat (RStar (rchar underscore)) (RCat (RClass is_alpha) (RStar (RClass cls_word))).

(** First identifier of RE_SHAPE_ID, whose last class carries a doubled star ([**]), identity.rs:98. *)
Definition re_ident_ss : regex :=
  RCat (RStar (rchar underscore)) (RCat (RClass is_alpha) (RStar (RStar (RClass cls_word)))).

(** Group 1 of RE_SHAPE_ID, identity.rs:98. *)
Definition re_sid_ns : regex := RCat re_ident_ss (RStar (RCat (rchar dot) re_ident)).

(** [(\$(...))?] of RE_SHAPE_ID, identity.rs:100. *)
Definition re_sid_member : regex := ropt (RCat (rchar dollar) re_ident).

(** RE_SHAPE_ID, identity.rs:95-103. *)
Definition re_shape_id : regex :=
  RCat re_sid_ns (RCat (rchar hash_ch) (RCat re_ident re_sid_member)).

(** [Identifier::is_valid], identity.rs:145-147. *)
Definition ident_is_valid (s : str) : bool := rmatch re_ident s.

(** [Identifier::from_str], identity.rs:115-121. *)
Definition ident_from_str (s : str) : result str :=
  if ident_is_valid s then Ok s else Err (EInvalidShapeID s).

(** [Display for Identifier], identity.rs:106-110. *)
Definition ident_display (i : str) : str := i.

(** [PartialEq for Identifier], identity.rs:124-133. *)
Definition ident_eqb (a b : str) : bool := str_eqb (lower a) (lower b).

(** Derived [Ord for Identifier], identity.rs:22. *)
Definition ident_cmp (a b : str) : comparison := str_cmp a b.

(** [NamespaceID::is_valid], identity.rs:191-198. *)
Definition ns_is_valid (s : str) : bool := forallb ident_is_valid (split_on dot s).

(** [NamespaceID::from_str], identity.rs:161-167. *)
Definition ns_from_str (s : str) : result str :=
  if ns_is_valid s then Ok s else Err (EInvalidShapeID s).

(** [PartialEq for NamespaceID], identity.rs:170-179. *)
Definition ns_eqb (a b : str) : bool := str_eqb (lower a) (lower b).

(** [NamespaceID::split], identity.rs:218-222. *)
Definition ns_split (n : str) : list str := split_on dot n.

(** [ShapeID::new], identity.rs:269-279. *)
Definition sid_new (n s : str) (m : option str) : shape_id := SID n s m.

(** [NamespaceID::make_shape], identity.rs:203-205, and [make_member], 211-213. *)
Definition ns_make_shape (n s : str) : shape_id := sid_new n s None.
Definition ns_make_member (n s m : str) : shape_id := sid_new n s (Some m).

(** [Display for ShapeID], identity.rs:227-236. *)
Definition sid_display (i : shape_id) : str :=
  (sid_ns i ++ [hash_ch]) ++ sid_name i ++
  match sid_member i with Some m => [dollar] ++ m | None => [] end.

(** [ShapeID::from_str], identity.rs:238-255: groups 1, 3 and 5 of RE_SHAPE_ID. *)
Definition sid_from_str (s : str) : result shape_id :=
  match split_match re_sid_ns (RCat (rchar hash_ch) (RCat re_ident re_sid_member)) s with
  | Some (n, _ :: rest) =>
      match split_match re_ident re_sid_member rest with
      | Some (nm, []) => Ok (SID n nm None)
      | Some (nm, _ :: m) => Ok (SID n nm (Some m))
      | None => Err (EInvalidShapeID s)
      end
  | _ => Err (EInvalidShapeID s)
  end.

(** [ShapeID::is_valid], identity.rs:262-264. *)
Definition sid_is_valid (s : str) : bool := rmatch re_shape_id s.

(** [ShapeID::shape], identity.rs:295-301: panics ([unwrap]) on invalid parts. *)
Definition sid_shape (n s : str) : result shape_id :=
  match ns_from_str n, ident_from_str s with
  | Ok n', Ok s' => Ok (sid_new n' s' None)
  | _, _ => Panic
  end.

(** [ShapeID::member], identity.rs:305-311. *)
Definition sid_member_of (n s m : str) : result shape_id :=
  match ns_from_str n, ident_from_str s, ident_from_str m with
  | Ok n', Ok s', Ok m' => Ok (sid_new n' s' (Some m'))
  | _, _, _ => Panic
  end.

(** [ShapeID::is_member], identity.rs:349-351. *)
Definition sid_is_member (i : shape_id) : bool :=
  match sid_member i with Some _ => true | None => false end.

(** [ShapeID::shape_only], identity.rs:317-323. *)
Definition sid_shape_only (i : shape_id) : shape_id :=
  if sid_is_member i then SID (sid_ns i) (sid_name i) None else i.

(** Derived [PartialEq for ShapeID], identity.rs:60: field by field. *)
Definition sid_eqb (a b : shape_id) : bool :=
  ns_eqb (sid_ns a) (sid_ns b) && ident_eqb (sid_name a) (sid_name b)
  && option_eqb ident_eqb (sid_member a) (sid_member b).

(** Derived [Ord for ShapeID], identity.rs:60: lexicographic by field, [None < Some]. *)
Definition sid_cmp (a b : shape_id) : comparison :=
  match str_cmp (sid_ns a) (sid_ns b) with
  | Eq => match str_cmp (sid_name a) (sid_name b) with
          | Eq => match sid_member a, sid_member b with
                  | None, None => Eq
                  | None, Some _ => Lt
                  | Some _, None => Gt
                  | Some x, Some y => str_cmp x y
                  end
          | c => c
          end
  | c => c
  end.

(** [ShapeID::is_in_same_namespace], identity.rs:356-358. *)
Definition sid_same_ns (a b : shape_id) : bool := ns_eqb (sid_ns a) (sid_ns b).

(** [ShapeID::is_valid_member], identity.rs:365-370. *)
Definition sid_is_valid_member (self other : shape_id) : bool :=
  negb (sid_is_member self) && sid_is_member other && sid_same_ns self other
  && ident_eqb (sid_name self) (sid_name other).

(** [ShapeID::make_shape], identity.rs:376-381: keeps the member name. *)
Definition sid_make_shape (i : shape_id) (s : str) : shape_id := SID (sid_ns i) s (sid_member i).

(** [ShapeID::make_member], identity.rs:387-392. *)
Definition sid_make_member (i : shape_id) (m : str) : shape_id :=
  SID (sid_ns i) (sid_name i) (Some m).

(** What the derived [Hash] impls feed to the [Hasher] (identity.rs:22, 35, 60): the exact text,
    not the lower-cased one.  A hasher is an arbitrary function of what it is fed; it stands for
    SipHash with its random keys (std's [RandomState]). *)
Class Hasher := {
  hash_str : str -> Z;                   (* [Identifier], [NamespaceID] (via [String]) *)
  hash_sid : shape_id -> Z;              (* [ShapeID] *)
}.

(** Two keys of a [HashMap]/[HashSet] match when their hashes agree and they are [==]. *)
Definition ident_key_eqb `{Hasher} (a b : str) : bool :=
  (hash_str a =? hash_str b)%Z && ident_eqb a b.
Definition sid_key_eqb `{Hasher} (a b : shape_id) : bool :=
  (hash_sid a =? hash_sid b)%Z && sid_eqb a b.
