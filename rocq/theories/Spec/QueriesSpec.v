(** What the small queries of atelier-core are about, in terms of the data alone. *)
From Verif.Model Require Import Queries.
From Verif.Spec Require Export ModelSpec IdentitySpec.

(** ** Traits *)
Section Traits.
  Context `{Hasher}.

  (** The ids a hash map takes for the same key. *)
  Definition goes_by (a b : shape_id) : Prop := same_id a b /\ hash_sid a = hash_sid b.
  (** The element carries the trait. *)
  Definition carries (ts : traits) (t : shape_id) : Prop := exists k v, In (k, v) ts /\ goes_by k t.
  (** The question a user asks by each method, as the trait of the Smithy prelude it is about. *)
  Definition trait_questions : list ((traits -> bool) * string) :=
    [(has_documentation, "documentation"); (has_external_documentation, "externalDocumentation");
     (has_length, "length"); (has_pattern, "pattern"); (has_required_length, "requiresLength");
     (is_boxed, "box"); (is_deprecated, "deprecated"); (is_error, "error"); (is_idempotent, "idempotent");
     (is_no_replace, "noReplace"); (is_paginated, "paginated"); (is_private, "private"); (is_readonly, "readonly");
     (is_references, "references"); (is_required, "required"); (is_sensitive, "sensitive");
     (is_streaming, "streaming"); (is_since, "since"); (is_tagged, "tags"); (is_titled, "title");
     (is_trait, "trait"); (has_unique_items, "uniqueItems"); (is_unstable, "unstable")]%string.
  (** [smithy.api#name]. *)
  Definition smithy_api (n : string) : shape_id := SID (lit "smithy.api") (lit n) None.

  (** What is done to the traits of an element. *)
  Inductive trait_call := Apply (id : shape_id) (v : option value) | Remove (id : shape_id).
  Definition trait_do (ts : traits) (c : trait_call) : traits :=
    match c with
    | Apply id v => fst (apply_with_value ts id v)
    | Remove id => remove_trait id ts
    end.
  Definition traits_after (h : list trait_call) : traits := fold_left trait_do h [].
  (** What an element holds for trait [t] after a history: the last word, where a repeated trait is combined with
      what is there if that is possible and is otherwise refused. *)
  Inductive holds (t : shape_id) : list trait_call -> option (option value) -> Prop :=
  | h_nothing : holds t [] None
  | h_other_apply h x id v : holds t h x -> ~ goes_by id t -> holds t (h ++ [Apply id v]) x
  | h_other_remove h x id : holds t h x -> ~ goes_by id t -> holds t (h ++ [Remove id]) x
  | h_member h x id v : holds t h x -> sid_member id <> None -> holds t (h ++ [Apply id v]) x
  | h_removed h x id : holds t h x -> goes_by id t -> holds t (h ++ [Remove id]) None
  | h_first h id v : holds t h None -> goes_by id t -> sid_member id = None -> holds t (h ++ [Apply id v]) (Some v)
  | h_again h old id v c :
      holds t h (Some old) -> goes_by id t -> sid_member id = None -> combine_trait old v c ->
      holds t (h ++ [Apply id v]) (Some c)
  | h_refused h old id v :
      holds t h (Some old) -> goes_by id t -> sid_member id = None -> (forall c, ~ combine_trait old v c) ->
      holds t (h ++ [Apply id v]) (Some old).
  (** Applied at some point and not removed since. *)
  Definition applied_and_kept (t : shape_id) (h : list trait_call) : Prop :=
    exists h1 id v h2,
      h = h1 ++ Apply id v :: h2 /\ goes_by id t /\ sid_member id = None
      /\ (forall r, In (Remove r) h2 -> ~ goes_by r t).
  Definition call_ok (c : trait_call) : Prop :=
    match c with Apply _ (Some v) => value_ok v | _ => True end.
End Traits.

(** ** Shapes *)
Definition kind_questions : list (shape_kind -> bool) :=
  [kind_is_simple; kind_is_list; kind_is_set; kind_is_map; kind_is_structure; kind_is_union; is_service; is_operation;
   is_resource; is_unresolved].
Definition value_questions : list (value -> bool) :=
  [is_array; value_is_object; value_is_number; value_is_boolean; value_is_string; value_is_none].
(** Yes to exactly one of the questions. *)
Definition exactly_one {A} (questions : list (A -> bool)) (x : A) : Prop :=
  exists before q after, questions = before ++ q :: after /\ q x = true
    /\ Forall (fun p => p x = false) before /\ Forall (fun p => p x = false) after.
(** [is_...] and [as_...] recognise exactly one form of the data. *)
Definition recognises {A B} (is_ : A -> bool) (as_ : A -> option B) (form : B -> A) : Prop :=
  forall x, (is_ x = true <-> exists v, x = form v) /\ (forall v, as_ x = Some v <-> x = form v).

(** The member a shape has under a name. *)
Inductive member_named `{Hasher} : shape_kind -> str -> member_shape -> Prop :=
| mn_list m n : same_name n (lit "member") -> member_named (KList m) n m
| mn_set m n : same_name n (lit "member") -> member_named (KSet m) n m
| mn_key k v n : same_name n (lit "key") -> member_named (KMap k v) n k
| mn_value k v n : same_name n (lit "value") -> member_named (KMap k v) n v
| mn_structure ms k m n : In (k, m) ms -> same_name k n -> hash_str k = hash_str n -> member_named (KStructure ms) n m
| mn_union ms k m n : In (k, m) ms -> same_name k n -> hash_str k = hash_str n -> member_named (KUnion ms) n m.

(** ** Names in builders *)
Definition valid_name (n : shape_name) : Prop :=
  match n with Qualified i => valid_id i | Local i => is_identifier i end.
Definition name_text (n : shape_name) : str := match n with Qualified i => id_text i | Local i => i end.

(** ** Numbers *)

(** The value of a binary64 as a multiple of 2^-1074, the smallest one there is. The infinities come out as the
    next power of two beyond the finite ones. *)
Definition f64_sign (b : Z) : bool := Z.testbit b 63.
Definition f64_exponent (b : Z) : Z := ((b / 2 ^ 52) mod 2 ^ 11)%Z.
Definition f64_fraction (b : Z) : Z := (b mod 2 ^ 52)%Z.
Definition f64_magnitude (b : Z) : Z :=
  (if f64_exponent b =? 0 then f64_fraction b else (2 ^ 52 + f64_fraction b) * 2 ^ (f64_exponent b - 1))%Z.
Definition f64_units (b : Z) : Z := if f64_sign b then Z.opp (f64_magnitude b) else f64_magnitude b.
Definition is_f64 (b : Z) : Prop := (0 <= b < 2 ^ 64)%Z.
Definition f64_nan (b : Z) : Prop := f64_exponent b = 2047%Z /\ f64_fraction b <> 0%Z.
Definition number_ok (n : number) : Prop := match n with NInteger _ => True | NFloat b => is_f64 b end.
Definition not_nan (n : number) : Prop := match n with NInteger _ => True | NFloat b => ~ f64_nan b end.
(** [a < b] as numbers are ordered here: integers before floats, each by value. *)
Inductive number_before : number -> number -> Prop :=
| nb_int x y : (x < y)%Z -> number_before (NInteger x) (NInteger y)
| nb_int_float x y : number_before (NInteger x) (NFloat y)
| nb_float x y : ~ f64_nan x -> ~ f64_nan y -> (f64_units x < f64_units y)%Z -> number_before (NFloat x) (NFloat y).
Inductive number_same : number -> number -> Prop :=
| ns_int x : number_same (NInteger x) (NInteger x)
| ns_float x y : ~ f64_nan x -> ~ f64_nan y -> f64_units x = f64_units y -> number_same (NFloat x) (NFloat y).
