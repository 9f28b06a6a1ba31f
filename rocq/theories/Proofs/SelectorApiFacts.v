(** Facts about equality of selectors and histories of calls on their parts. *)
From Verif.Model Require Import ShapeApi SelectorApi.
From Verif.Spec Require Import SelectorApiSpec.
From Verif.Proofs Require Import BaseFacts IdentityFacts ShapeFacts ValueFacts FluentFacts.
From Verif.Proofs Require ShapeApiFacts SelectorFacts.

(** ** Equality *)
Lemma vec_eqb_spec {A} (eqb : A -> A -> bool) (R : A -> A -> Prop) l :
  Forall (fun x => forall y, eqb x y = true <-> R x y) l -> forall k, vec_eqb eqb l k = true <-> Forall2 R l k.
Proof.
  induction 1 as [|x l H _ IH]; intros [|y k]; cbn [vec_eqb].
  - split; [constructor|reflexivity].
  - split; [discriminate|intros X; inversion X].
  - split; [discriminate|intros X; inversion X].
  - rewrite andb_true_iff, H, IH. split; [intros [? ?]; constructor; assumption|intros X; inversion X; subst; tauto].
Qed.
Lemma vec_eqb_all {A} (eqb : A -> A -> bool) (R : A -> A -> Prop) :
  (forall x y, eqb x y = true <-> R x y) -> forall l k, vec_eqb eqb l k = true <-> Forall2 R l k.
Proof. intros H l. apply vec_eqb_spec. apply Forall_forall. intros x _ y. apply H. Qed.
Lemma option_eqb_spec {A} (eqb : A -> A -> bool) (R : A -> A -> Prop) :
  (forall x y, eqb x y = true <-> R x y) -> forall a b, option_eqb eqb a b = true <-> opt_rel R a b.
Proof. intros H [x|] [y|]; cbn; [apply H|split; [discriminate|contradiction]..|tauto]. Qed.
Lemma shape_type_eqb_spec a b : shape_type_eqb a b = true <-> a = b.
Proof. unfold shape_type_eqb. destruct (shape_type_eq_dec a b); split; congruence. Qed.
Lemma comparator_eqb_spec a b : comparator_eqb a b = true <-> a = b.
Proof. unfold comparator_eqb. destruct (comparator_eq_dec a b); split; congruence. Qed.
Lemma number_eqb_equal a b : number_eqb a b = true <-> equal_number a b.
Proof.
  destruct a as [n|x], b as [m|y]; cbn [number_eqb equal_number]; [apply Z.eqb_eq|split; [discriminate|contradiction]..|apply f64_eqb_spec].
Qed.
Ltac other := split; [discriminate|intros X; inversion X].
Lemma sel_value_eqb_spec a b : sel_value_eqb a b = true <-> equal_sel a b.
Proof.
  destruct a, b; cbn [sel_value_eqb]; try other.
  - rewrite str_eqb_eq. split; [intros ->; constructor|intros X; inversion X; reflexivity].
  - rewrite number_eqb_equal. split; [intros; constructor; assumption|intros X; inversion X; assumption].
  - rewrite ident_eqb_same. split; [intros; constructor; assumption|intros X; inversion X; assumption].
  - rewrite sid_eqb_same. split; [intros; constructor; assumption|intros X; inversion X; assumption].
Qed.
Lemma segment_eqb_spec a b : segment_eqb a b = true <-> equal_segment a b.
Proof.
  destruct a, b; cbn [segment_eqb]; try other.
  - rewrite sel_value_eqb_spec. split; [intros; constructor; assumption|intros X; inversion X; assumption].
  - rewrite ident_eqb_same. split; [intros; constructor; assumption|intros X; inversion X; assumption].
Qed.
Lemma key_eqb_spec a b : key_eqb a b = true <-> equal_key a b.
Proof.
  destruct a as [n p], b as [m q]. unfold key_eqb. cbn [key_id key_path]. rewrite andb_true_iff, ident_eqb_same, (vec_eqb_all _ _ segment_eqb_spec).
  split; [intros [? ?]; constructor; assumption|intros X; inversion X; subst; tauto].
Qed.
Lemma comparison_eqb_spec a b : comparison_eqb a b = true <-> equal_comparison a b.
Proof.
  destruct a as [c l i], b as [d k j]. unfold comparison_eqb. cbn [cp_comparator cp_values cp_insensitive].
  rewrite !andb_true_iff, comparator_eqb_spec, (vec_eqb_all _ _ sel_value_eqb_spec), Bool.eqb_true_iff.
  split; [intros [[-> ?] ->]; constructor; assumption|intros X; inversion X; subst; tauto].
Qed.
Lemma attribute_eqb_spec a b : attribute_eqb a b = true <-> equal_attribute a b.
Proof.
  destruct a as [k c], b as [k2 c2]. unfold attribute_eqb. cbn [at_key at_comparison]. rewrite andb_true_iff, key_eqb_spec, (option_eqb_spec _ _ comparison_eqb_spec).
  split; [intros [? ?]; constructor; assumption|intros X; inversion X; subst; tauto].
Qed.
Lemma scoped_value_eqb_spec a b : scoped_value_eqb a b = true <-> equal_scoped_value a b.
Proof.
  destruct a, b; cbn [scoped_value_eqb]; try other.
  - rewrite sel_value_eqb_spec. split; [intros; constructor; assumption|intros X; inversion X; assumption].
  - rewrite (vec_eqb_all _ _ segment_eqb_spec). split; [intros; constructor; assumption|intros X; inversion X; assumption].
Qed.
Lemma assertion_eqb_spec a b : assertion_eqb a b = true <-> equal_assertion a b.
Proof.
  destruct a as [l c r i], b as [l2 c2 r2 i2]. unfold assertion_eqb. cbn [as_lhs as_comparator as_rhs as_insensitive].
  rewrite !andb_true_iff, scoped_value_eqb_spec, comparator_eqb_spec, (vec_eqb_all _ _ scoped_value_eqb_spec), Bool.eqb_true_iff.
  split; [intros [[[? ->] ?] ->]; constructor; assumption|intros X; inversion X; subst; tauto].
Qed.
Lemma scoped_eqb_spec a b : scoped_eqb a b = true <-> equal_scoped a b.
Proof.
  destruct a as [k l], b as [k2 l2]. unfold scoped_eqb. cbn [sc_key sc_assertions]. rewrite andb_true_iff, (option_eqb_spec _ _ key_eqb_spec), (vec_eqb_all _ _ assertion_eqb_spec).
  split; [intros [? ?]; constructor; assumption|intros X; inversion X; subst; tauto].
Qed.
Lemma neighbor_eqb_spec a b : neighbor_eqb a b = true <-> equal_neighbor a b.
Proof.
  destruct a, b; cbn [neighbor_eqb]; try other; try (split; [constructor|reflexivity]);
    rewrite (vec_eqb_all _ _ ident_eqb_same); (split; [intros; constructor; assumption|intros X; inversion X; assumption]).
Qed.
Lemma expr_eqb_spec a : forall b, expr_eqb a b = true <-> equal_expr a b.
Proof.
  induction a as [t|a|s|n|n args IH|n sel IH|n] using SelectorFacts.expr_ind'; intros [u|b|v|m|m brgs|m tel|m]; cbn [expr_eqb]; try other.
  - rewrite shape_type_eqb_spec. split; [intros ->; constructor|intros X; inversion X; reflexivity].
  - rewrite attribute_eqb_spec. split; [intros; constructor; assumption|intros X; inversion X; assumption].
  - rewrite scoped_eqb_spec. split; [intros; constructor; assumption|intros X; inversion X; assumption].
  - rewrite neighbor_eqb_spec. split; [intros; constructor; assumption|intros X; inversion X; assumption].
  - rewrite andb_true_iff, ident_eqb_same, (vec_eqb_spec (vec_eqb expr_eqb) (Forall2 equal_expr)).
    + split; [intros [? ?]; constructor; assumption|intros X; inversion X; subst; tauto].
    + eapply Forall_impl; [|exact IH]. cbn beta. intros l Hl k. apply vec_eqb_spec. exact Hl.
  - rewrite andb_true_iff, ident_eqb_same, (vec_eqb_spec expr_eqb equal_expr) by exact IH.
    split; [intros [? ?]; constructor; assumption|intros X; inversion X; subst; tauto].
  - rewrite ident_eqb_same. split; [intros; constructor; assumption|intros X; inversion X; assumption].
Qed.
Lemma selector_eqb_spec a b : selector_eqb a b = true <-> equal_selector a b.
Proof. apply vec_eqb_all. intros x y. apply expr_eqb_spec. Qed.

(** *** Symmetric and transitive *)
Lemma F2_sym {A} (R : A -> A -> Prop) l : Forall (fun x => forall y, R x y -> R y x) l -> forall k, Forall2 R l k -> Forall2 R k l.
Proof. induction 1 as [|x l H _ IH]; intros k F; inversion F; subst; constructor; auto. Qed.
Lemma F2_trans {A} (R : A -> A -> Prop) l :
  Forall (fun x => forall y z, R x y -> R y z -> R x z) l -> forall k m, Forall2 R l k -> Forall2 R k m -> Forall2 R l m.
Proof. induction 1 as [|x l H _ IH]; intros k m F G; inversion F; subst; inversion G; subst; constructor; eauto. Qed.
Lemma F2_sym' {A} (R : A -> A -> Prop) : (forall x y, R x y -> R y x) -> forall l k, Forall2 R l k -> Forall2 R k l.
Proof. intros H l. apply F2_sym. apply Forall_forall. auto. Qed.
Lemma F2_trans' {A} (R : A -> A -> Prop) : (forall x y z, R x y -> R y z -> R x z) -> forall l k m, Forall2 R l k -> Forall2 R k m -> Forall2 R l m.
Proof. intros H l. apply F2_trans. apply Forall_forall. intros x _ y z. apply H. Qed.
Lemma opt_sym {A} (R : A -> A -> Prop) : (forall x y, R x y -> R y x) -> forall a b, opt_rel R a b -> opt_rel R b a.
Proof. intros H [x|] [y|]; cbn; auto. Qed.
Lemma opt_trans {A} (R : A -> A -> Prop) : (forall x y z, R x y -> R y z -> R x z) -> forall a b c, opt_rel R a b -> opt_rel R b c -> opt_rel R a c.
Proof. intros H [x|] [y|] [z|]; cbn; eauto; contradiction. Qed.
Lemma same_name_sym a b : same_name a b -> same_name b a. Proof. unfold same_name. congruence. Qed.
Lemma same_name_trans a b c : same_name a b -> same_name b c -> same_name a c. Proof. unfold same_name. congruence. Qed.
Lemma same_id_sym a b : same_id a b -> same_id b a.
Proof. rewrite <- !sid_eqb_same, sid_eqb_sym. auto. Qed.
Lemma same_id_trans a b c : same_id a b -> same_id b c -> same_id a c.
Proof. rewrite <- !sid_eqb_same. apply sid_eqb_trans. Qed.
Lemma equal_number_sym a b : equal_number a b -> equal_number b a.
Proof. destruct a, b; cbn; [congruence|tauto..|]. unfold same_float. intuition congruence. Qed.
Lemma equal_number_trans a b c : equal_number a b -> equal_number b c -> equal_number a c.
Proof. destruct a, b, c; cbn; try contradiction; [congruence|]. unfold same_float. intuition (subst; auto). Qed.
Ltac sym_by := intros; match goal with H : _ |- _ => inversion H; subst; constructor; eauto end.
Lemma equal_sel_sym a b : equal_sel a b -> equal_sel b a.
Proof. intros H; inversion H; subst; constructor; auto using equal_number_sym, same_name_sym, same_id_sym. Qed.
Lemma equal_sel_trans a b c : equal_sel a b -> equal_sel b c -> equal_sel a c.
Proof. intros H G; inversion H; subst; inversion G; subst; constructor; eauto using equal_number_trans, same_name_trans, same_id_trans. Qed.
Lemma equal_segment_sym a b : equal_segment a b -> equal_segment b a.
Proof. intros H; inversion H; subst; constructor; auto using equal_sel_sym, same_name_sym. Qed.
Lemma equal_segment_trans a b c : equal_segment a b -> equal_segment b c -> equal_segment a c.
Proof. intros H G; inversion H; subst; inversion G; subst; constructor; eauto using equal_sel_trans, same_name_trans. Qed.
Lemma equal_key_sym a b : equal_key a b -> equal_key b a.
Proof. intros H; inversion H; subst; constructor; auto using same_name_sym, (F2_sym' _ equal_segment_sym). Qed.
Lemma equal_key_trans a b c : equal_key a b -> equal_key b c -> equal_key a c.
Proof. intros H G; inversion H; subst; inversion G; subst; constructor; eauto using same_name_trans, (F2_trans' _ equal_segment_trans). Qed.
Lemma equal_comparison_sym a b : equal_comparison a b -> equal_comparison b a.
Proof. intros H; inversion H; subst; constructor; auto using (F2_sym' _ equal_sel_sym). Qed.
Lemma equal_comparison_trans a b c : equal_comparison a b -> equal_comparison b c -> equal_comparison a c.
Proof. intros H G; inversion H; subst; inversion G; subst; constructor; eauto using (F2_trans' _ equal_sel_trans). Qed.
Lemma equal_attribute_sym a b : equal_attribute a b -> equal_attribute b a.
Proof. intros H; inversion H; subst; constructor; auto using equal_key_sym, (opt_sym _ equal_comparison_sym). Qed.
Lemma equal_attribute_trans a b c : equal_attribute a b -> equal_attribute b c -> equal_attribute a c.
Proof. intros H G; inversion H; subst; inversion G; subst; constructor; eauto using equal_key_trans, (opt_trans _ equal_comparison_trans). Qed.
Lemma equal_scoped_value_sym a b : equal_scoped_value a b -> equal_scoped_value b a.
Proof. intros H; inversion H; subst; constructor; auto using equal_sel_sym, (F2_sym' _ equal_segment_sym). Qed.
Lemma equal_scoped_value_trans a b c : equal_scoped_value a b -> equal_scoped_value b c -> equal_scoped_value a c.
Proof. intros H G; inversion H; subst; inversion G; subst; constructor; eauto using equal_sel_trans, (F2_trans' _ equal_segment_trans). Qed.
Lemma equal_assertion_sym a b : equal_assertion a b -> equal_assertion b a.
Proof. intros H; inversion H; subst; constructor; auto using equal_scoped_value_sym, (F2_sym' _ equal_scoped_value_sym). Qed.
Lemma equal_assertion_trans a b c : equal_assertion a b -> equal_assertion b c -> equal_assertion a c.
Proof. intros H G; inversion H; subst; inversion G; subst; constructor; eauto using equal_scoped_value_trans, (F2_trans' _ equal_scoped_value_trans). Qed.
Lemma equal_scoped_sym a b : equal_scoped a b -> equal_scoped b a.
Proof. intros H; inversion H; subst; constructor; auto using (opt_sym _ equal_key_sym), (F2_sym' _ equal_assertion_sym). Qed.
Lemma equal_scoped_trans a b c : equal_scoped a b -> equal_scoped b c -> equal_scoped a c.
Proof. intros H G; inversion H; subst; inversion G; subst; constructor; eauto using (opt_trans _ equal_key_trans), (F2_trans' _ equal_assertion_trans). Qed.
Lemma equal_neighbor_sym a b : equal_neighbor a b -> equal_neighbor b a.
Proof. intros H; inversion H; subst; constructor; auto using (F2_sym' _ same_name_sym). Qed.
Lemma equal_neighbor_trans a b c : equal_neighbor a b -> equal_neighbor b c -> equal_neighbor a c.
Proof. intros H G; inversion H; subst; inversion G; subst; constructor; eauto using (F2_trans' _ same_name_trans). Qed.
Lemma equal_expr_sym a : forall b, equal_expr a b -> equal_expr b a.
Proof.
  induction a as [t|a|s|n|n args IH|n sel IH|n] using SelectorFacts.expr_ind'; intros b H; inversion H; subst; constructor;
    auto using equal_attribute_sym, equal_scoped_sym, equal_neighbor_sym, same_name_sym.
  - eapply F2_sym; [|eassumption]. eapply Forall_impl; [|exact IH]. cbn beta. intros l Hl. apply F2_sym. exact Hl.
  - eapply F2_sym; [|eassumption]. exact IH.
Qed.
Lemma equal_expr_trans a : forall b c, equal_expr a b -> equal_expr b c -> equal_expr a c.
Proof.
  induction a as [t|a|s|n|n args IH|n sel IH|n] using SelectorFacts.expr_ind'; intros b c H G; inversion H; subst; inversion G; subst; constructor;
    eauto using equal_attribute_trans, equal_scoped_trans, equal_neighbor_trans, same_name_trans.
  - eapply F2_trans; [|eassumption..]. eapply Forall_impl; [|exact IH]. cbn beta. intros l Hl. apply F2_trans. exact Hl.
  - eapply F2_trans; [|eassumption..]. exact IH.
Qed.

(** *** Reflexive but for NaN *)
Definition fine (v : sel_value) : Prop := match v with SvNumber (NFloat b) => f64_is_nan b = false | _ => True end.
Lemma same_name_refl a : same_name a a. Proof. reflexivity. Qed.
Lemma same_id_refl a : same_id a a. Proof. rewrite <- sid_eqb_same. apply sid_eqb_refl. Qed.
Lemma equal_sel_refl v : equal_sel v v <-> fine v.
Proof.
  destruct v as [s|[n|b]|n|i]; cbn [fine].
  - split; [auto|constructor].
  - split; [auto|]. constructor. reflexivity.
  - split; [|intros F; constructor; cbn; unfold same_float; auto]. intros X. inversion X; subst. match goal with H : equal_number _ _ |- _ => exact (proj1 H) end.
  - split; [auto|]. constructor. reflexivity.
  - split; [auto|]. constructor. apply same_id_refl.
Qed.
Lemma F2_refl {A} (R : A -> A -> Prop) (f : A -> list sel_value) l :
  Forall (fun x => R x x <-> Forall fine (f x)) l -> (Forall2 R l l <-> Forall fine (flat_map f l)).
Proof.
  induction 1 as [|x l H _ IH]; cbn [flat_map]; [split; constructor|]. rewrite Forall_app, <- H, <- IH.
  split; [intros F; inversion F; subst; tauto|intros [? ?]; constructor; assumption].
Qed.
Lemma F2_refl' {A} (R : A -> A -> Prop) (f : A -> list sel_value) :
  (forall x, R x x <-> Forall fine (f x)) -> forall l, Forall2 R l l <-> Forall fine (flat_map f l).
Proof. intros H l. apply F2_refl. apply Forall_forall. auto. Qed.
Lemma Forall1 (P : sel_value -> Prop) v : Forall P [v] <-> P v.
Proof. split; [intros F; inversion F; assumption|intros; constructor; [assumption|constructor]]. Qed.
Lemma Forall0 (P : sel_value -> Prop) : Forall P [] <-> True.
Proof. split; [auto|constructor]. Qed.
Lemma equal_segment_refl p : equal_segment p p <-> Forall fine (segment_values p).
Proof.
  destruct p; cbn [segment_values]; rewrite ?Forall1, ?Forall0, <- ?equal_sel_refl.
  - split; [intros X; inversion X; assumption|intros; constructor; assumption].
  - split; [auto|]. constructor. reflexivity.
Qed.
Lemma equal_key_refl k : equal_key k k <-> Forall fine (key_values k).
Proof.
  destruct k as [n p]. unfold key_values. cbn [key_path]. rewrite <- (F2_refl' _ _ equal_segment_refl).
  split; [intros X; inversion X; assumption|intros; constructor; [reflexivity|assumption]].
Qed.
Lemma flat_map_one {A} (l : list A) : flat_map (fun x => [x]) l = l.
Proof. induction l; cbn; congruence. Qed.
Lemma equal_comparison_refl c : equal_comparison c c <-> Forall fine (cp_values c).
Proof.
  destruct c as [c l i]. cbn [cp_values]. pose proof (F2_refl' equal_sel (fun x => [x]) (fun x => iff_trans (equal_sel_refl x) (iff_sym (Forall1 fine x))) l) as E. rewrite flat_map_one in E. rewrite <- E.
  split; [intros X; inversion X; assumption|intros; constructor; assumption].
Qed.
Lemma equal_attribute_refl a : equal_attribute a a <-> Forall fine (expr_values (XAttribute a)).
Proof.
  destruct a as [k [c|]]; cbn [expr_values at_key at_comparison]; rewrite Forall_app, <- equal_key_refl, <- ?equal_comparison_refl, ?Forall0.
  - split; [intros X; inversion X; subst; cbn in *; tauto|intros [? ?]; constructor; assumption].
  - split; [intros X; inversion X; subst; cbn in *; tauto|intros [? ?]; constructor; [assumption|exact I]].
Qed.
Lemma equal_scoped_value_refl v : equal_scoped_value v v <-> Forall fine (scoped_value_values v).
Proof.
  destruct v; cbn [scoped_value_values]; rewrite ?Forall1, <- ?equal_sel_refl, <- ?(F2_refl' _ _ equal_segment_refl);
    (split; [intros X; inversion X; assumption|intros; constructor; assumption]).
Qed.
Lemma equal_assertion_refl a : equal_assertion a a <-> Forall fine (assertion_values a).
Proof.
  destruct a as [l c r i]. unfold assertion_values. cbn [as_lhs as_rhs].
  rewrite Forall_app, <- equal_scoped_value_refl, <- (F2_refl' _ _ equal_scoped_value_refl).
  split; [intros X; inversion X; subst; tauto|intros [? ?]; constructor; assumption].
Qed.
Lemma equal_scoped_refl a : equal_scoped a a <-> Forall fine (expr_values (XScoped a)).
Proof.
  destruct a as [[k|] l]; cbn [expr_values sc_key sc_assertions]; rewrite Forall_app, <- ?equal_key_refl, ?Forall0, <- (F2_refl' _ _ equal_assertion_refl).
  - split; [intros X; inversion X; subst; cbn in *; tauto|intros [? ?]; constructor; assumption].
  - split; [intros X; inversion X; subst; cbn in *; tauto|intros [? ?]; constructor; [exact I|assumption]].
Qed.
Lemma F2_same_name l : Forall2 same_name l l.
Proof. induction l; constructor; [reflexivity|assumption]. Qed.
Lemma equal_expr_refl x : equal_expr x x <-> Forall fine (expr_values x).
Proof.
  induction x as [t|a|s|n|n args IH|n sel IH|n] using SelectorFacts.expr_ind'.
  - split; [constructor|constructor].
  - rewrite <- equal_attribute_refl. split; [intros X; inversion X; assumption|intros; constructor; assumption].
  - rewrite <- equal_scoped_refl. split; [intros X; inversion X; assumption|intros; constructor; assumption].
  - split; [constructor|]. intros _. constructor. destruct n; constructor; apply F2_same_name.
  - cbn [expr_values]. rewrite <- (F2_refl (Forall2 equal_expr)).
    + split; [intros X; inversion X; assumption|intros; constructor; [reflexivity|assumption]].
    + eapply Forall_impl; [|exact IH]. cbn beta. intros l Hl. apply F2_refl. exact Hl.
  - cbn [expr_values]. rewrite <- (F2_refl equal_expr) by exact IH.
    split; [intros X; inversion X; assumption|intros; constructor; [reflexivity|assumption]].
  - split; [constructor|]. intros _. constructor. reflexivity.
Qed.
Lemma mentions_nan_spec x : mentions_nan x <-> ~ Forall fine (expr_values x).
Proof.
  unfold mentions_nan. induction (expr_values x) as [|v l IH].
  - split; [intros (b & [] & _)|intros X; exfalso; apply X; constructor].
  - split.
    + intros (b & [->|I] & N) F; inversion F as [|? ? Fv Fl]; subst; [cbn in Fv; congruence|]. apply IH in Fl; [exact Fl|]. exists b. tauto.
    + intros X. destruct v as [s|[n|b]|n|i].
      2,3: idtac.
      all: try (destruct IH as [_ IH]; destruct IH as (b' & I & N); [intros F; apply X; constructor; [exact Logic.I|exact F]|exists b'; split; [right; exact I|exact N]]).
      destruct (f64_is_nan b) eqn:E; [exists b; split; [left; reflexivity|exact E]|].
      destruct IH as [_ IH]. destruct IH as (b' & I & N); [intros F; apply X; constructor; [exact E|exact F]|exists b'; split; [right; exact I|exact N]].
Qed.

(** ** Lists that calls change *)
Section Lists.
  Context {A : Type} (eqb : A -> A -> bool) (R : A -> A -> Prop) (HR : forall x y, eqb x y = true <-> R x y).
  Definition change_apply (l : list A) (e : change A) : list A :=
    match e with
    | Put r => array_set l r
    | Push x => array_add l x
    | Extend r => array_append l r
    | Drop x => array_remove eqb l x
    end.
  Lemma without_app (P : A -> Prop) a b k : without P (a ++ b) k -> exists k1 k2, k = k1 ++ k2 /\ without P a k1 /\ without P b k2.
  Proof.
    revert k. induction a as [|x a IH]; cbn; intros k W; [exists [], k; split; [reflexivity|split; [constructor|exact W]]|].
    inversion W as [|? ? k' N W' |? ? k' N W']; subst; destruct (IH _ W') as (k1 & k2 & -> & W1 & W2).
    - exists (x :: k1), k2. split; [reflexivity|]. split; [constructor; assumption|exact W2].
    - exists k1, k2. split; [reflexivity|]. split; [constructor 3; assumption|exact W2].
  Qed.
  Lemma without_iff (P Q : A -> Prop) l k : (forall x, P x <-> Q x) -> without P l k -> without Q l k.
  Proof. intros E W. induction W; [constructor|constructor 2|constructor 3]; auto; rewrite <- E; assumption. Qed.
  Lemma without_none (P : A -> Prop) l : (forall x, ~ P x) -> without P l l.
  Proof. intros N. induction l; constructor; auto. Qed.
  Lemma without_all (P : A -> Prop) l : (forall x, P x) -> without P l [].
  Proof. intros N. induction l; [constructor|constructor 3; auto]. Qed.
  Lemma lost_nil x : ~ lost R x [].
  Proof. intros (e & [] & _). Qed.
  Lemma lost_cons x e es : lost R x (e :: es) <-> match e with Put _ => True | Drop y => R x y | _ => False end \/ lost R x es.
  Proof.
    split.
    - intros (e' & [<-|I] & M); [left; exact M|right; exists e'; tauto].
    - intros [M|(e' & I & M)]; [exists e; split; [left; reflexivity|exact M]|exists e'; split; [right; exact I|exact M]].
  Qed.
  Lemma without_drop es y l k : without (fun x => lost R x es) (array_remove eqb l y) k -> without (fun x => lost R x (Drop y :: es)) l k.
  Proof.
    revert k. induction l as [|x l IH]; intros k W; [inversion W; constructor|].
    unfold array_remove in W. cbn [filter] in W. destruct (eqb x y) eqn:E; cbn [negb] in W.
    - constructor 3; [|apply IH; exact W]. apply lost_cons. left. apply HR, E.
    - assert (NE : ~ R x y) by (rewrite <- HR; congruence).
      inversion W as [|? ? k' N W' |? ? k' N W']; subst.
      + constructor 2; [|apply IH; exact W']. rewrite lost_cons. tauto.
      + constructor 3; [|apply IH; exact W']. rewrite lost_cons. tauto.
  Qed.
  Lemma left_from es : forall l, left_by R (Extend l :: es) (fold_left change_apply es l).
  Proof.
    induction es as [|e es IH]; intros l.
    - cbn. rewrite <- (app_nil_r l) at 2. apply lb_call; [apply without_none, lost_nil|constructor].
    - cbn [fold_left]. specialize (IH (change_apply l e)). inversion IH as [|? ? kept rest W L]; subst. cbn [given] in W.
      destruct e as [r|x|r|y]; cbn [change_apply] in W.
      + change (kept ++ rest) with ([] ++ (kept ++ rest)). apply lb_call.
        * apply without_all. intros x. apply lost_cons. left. exact I.
        * apply lb_call; assumption.
      + unfold array_add in W. destruct (without_app _ _ _ _ W) as (k1 & k2 & -> & W1 & W2). rewrite <- app_assoc. apply lb_call.
        * eapply without_iff; [|exact W1]. intros z. rewrite lost_cons. tauto.
        * apply lb_call; assumption.
      + rewrite ShapeApiFacts.array_append_app in W. destruct (without_app _ _ _ _ W) as (k1 & k2 & -> & W1 & W2). rewrite <- app_assoc. apply lb_call.
        * eapply without_iff; [|exact W1]. intros z. rewrite lost_cons. tauto.
        * apply lb_call; assumption.
      + apply lb_call; [apply without_drop; exact W|]. change rest with ([] ++ rest). apply lb_call; [constructor|exact L].
  Qed.
  Lemma left_put es l : left_by R (Put l :: es) (fold_left change_apply es l).
  Proof. pose proof (left_from es l) as L. inversion L; subst. apply lb_call; assumption. Qed.
  Lemma without_fun (P : A -> Prop) l k k' : without P l k -> without P l k' -> k = k'.
  Proof.
    intros W. revert k'. induction W as [|x l k N W IH|x l k N W IH]; intros k' W'; inversion W'; subst; try contradiction; [reflexivity|f_equal; auto|auto].
  Qed.
  Lemma left_fun es r r' : left_by R es r -> left_by R es r' -> r = r'.
  Proof.
    intros L. revert r'. induction L as [|e later kept rest W L IH]; intros r' L'; inversion L'; subst; [reflexivity|].
    f_equal; [eapply without_fun; eassumption|auto].
  Qed.
End Lists.
Lemma array_has_spec {A} (l : list A) : array_has l = true <-> l <> [].
Proof. destruct l; split; cbn; congruence. Qed.
Lemma optional_has_spec {A} (o : option A) : optional_has o = true <-> o <> None.
Proof. destruct o; split; cbn; congruence. Qed.
Lemma fold_last {A} (l : list A) : forall x, latest (x :: l) = Some (fold_left (fun _ y => y) l x).
Proof.
  unfold latest. induction l as [|y l IH]; intros x; [reflexivity|]. cbn [fold_left]. rewrite <- IH. cbn [rev].
  destruct (rev l ++ [y]) eqn:E; [destruct (rev l); discriminate E|]. reflexivity.
Qed.
Lemma last_said_fold {A} (l : list (option A)) o : last_said o l = fold_left (fun _ y => y) l o.
Proof.
  pose proof (fold_last l o) as F. unfold last_said. unfold latest in *. cbn [rev] in F. destruct (rev l) eqn:E; cbn in F; injection F as F; congruence.
Qed.
