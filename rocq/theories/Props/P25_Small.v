(** Remaining small functions of the identity, trait, selector and member APIs (parts of C07, C44, C46, C56). *)
From Verif.Model Require Import Queries Prelude ShapeApi Fluent SelectorBuild.
From Verif.Spec Require Import QueriesSpec Witness.
From Verif.Proofs Require Import BaseFacts IdentityFacts QueriesFacts.

(** A namespace makes shape and member ids in that namespace; from valid parts come valid ids, and different parts give
    ids with different texts. *)
Theorem C07_namespace_makes_ids :
  forall (n s m : str),
    sid_ns (ns_make_shape n s) = n /\ sid_name (ns_make_shape n s) = s /\ sid_member (ns_make_shape n s) = None
    /\ ns_make_member n s m = sid_make_member (ns_make_shape n s) m
    /\ sid_shape_only (ns_make_member n s m) = ns_make_shape n s
    /\ (is_namespace n -> is_identifier s -> is_identifier m ->
          valid_id (ns_make_shape n s) /\ valid_id (ns_make_member n s m)
          /\ sid_display (ns_make_shape n s) = n ++ lit "#" ++ s
          /\ sid_display (ns_make_member n s m) = n ++ lit "#" ++ s ++ lit "$" ++ m).
Proof.
  intros n s m. repeat (split; [reflexivity|]). intros N S M. split; [repeat split; auto|]. split; [repeat split; auto|].
  split; unfold sid_display; cbn; rewrite <- ?app_assoc; cbn; rewrite ?app_nil_r; reflexivity.
Qed.
Print Assumptions C07_namespace_makes_ids.
Example C07_namespace_ex :
  is_namespace "example.motd" /\ is_identifier "Date"
  /\ sid_display (ns_make_member "example.motd" "Date" "day") = lit "example.motd#Date$day".
Proof. split; [apply ns_is_valid_spec; reflexivity|]. split; [apply ident_is_valid_spec; reflexivity|]. vm_compute. reflexivity. Qed.

(** The prelude's shape of a given name: refused exactly when the name is no identifier. *)
Theorem C44_prelude_names :
  forall (n : str),
    (is_identifier n -> prelude_shape_named n = Ok (SID (lit "smithy.api") n None))
    /\ (~ is_identifier n -> exists e, prelude_shape_named n = Err e).
Proof.
  intros n. unfold prelude_shape_named, ident_from_str. split.
  - intros I. apply ident_is_valid_spec in I. rewrite I. reflexivity.
  - intros I. destruct (ident_is_valid n) eqn:E; [apply ident_is_valid_spec in E; contradiction|]. eexists. reflexivity.
Qed.
Print Assumptions C44_prelude_names.

(** Giving a trait builder a value replaces the value and nothing else. *)
Theorem C44_set_value :
  forall (t : trait_builder) (vs : list value) (v : value),
    let t' := fold_left tb_set_value (vs ++ [v]) t in tb_id t' = tb_id t /\ tb_value t' = Some v.
Proof.
  intros t vs v. cbn zeta. rewrite fold_left_app. cbn. split; [|reflexivity].
  revert t. induction vs as [|w vs IH]; intros t; [reflexivity|]. cbn [fold_left]. rewrite IH. reflexivity.
Qed.
Print Assumptions C44_set_value.

(** Adding an attribute from a key, with or without a comparison, adds that attribute selector at the end. *)
Theorem C46_add_attribute_from :
  forall (b : list expr) (k : key) (c : option comparison_),
    sb_add_attribute_from b k c = b ++ [XAttribute (Attribute k c)].
Proof. intros b k []; reflexivity. Qed.
Print Assumptions C46_add_attribute_from.

(** The setters of a member change the one part they name. *)
Theorem C56_member_setters :
  forall (m : member_shape) (t : shape_id) (i : str),
    (let m' := member_set_target m t in ms_target m' = t /\ ms_id m' = ms_id m /\ ms_traits m' = ms_traits m)
    /\ (let m' := member_set_id m i in ms_id m' = i /\ ms_target m' = ms_target m /\ ms_traits m' = ms_traits m)
    /\ (let m' := ShapeApi.member_new i t in ms_id m' = i /\ ms_target m' = t /\ ms_traits m' = []).
Proof. intros m t i. repeat split. Qed.
Print Assumptions C56_member_setters.
