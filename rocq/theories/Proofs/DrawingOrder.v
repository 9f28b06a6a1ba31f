(** What iterating the maps of a model in other orders does to its drawings and its RDF graph. *)
From Verif.Model Require Import SemModel GraphML PlantUml Rdf.
From Verif.Spec Require Import ModelSpec ReorderSpec ActionsSpec GraphMLSpec UmlSpec RdfSpec OrderSpec.
From Verif.Proofs Require Import BaseFacts IdentityFacts HashMapFacts ReorderFacts ReorderEquiv OrderFacts RdfFacts ValueFacts RdfIso.
From Verif.Spec Require Import OrderSpec.

(** ** GraphML *)
Lemma type_name_order a b : reorder_body a b -> type_name a = type_name b.
Proof. intros []; reflexivity. Qed.
Lemma version_of_order a b : reorder_body a b -> version_of a = version_of b.
Proof. intros [| | | | |? ? (E & _)| |]; try reflexivity. cbn. rewrite E. reflexivity. Qed.
Lemma reordered_map {K V C} (R : V -> V -> Prop) (f g : K * V -> C) a b :
  (forall k x y, R x y -> f (k, x) = g (k, y)) -> reordered R a b -> Permutation (map f a) (map g b).
Proof.
  intros E (a' & P & F). rewrite (Permutation_map f P). clear P. replace (map f a') with (map g b); [reflexivity|].
  induction F as [|[k x] [k' y] a' b [Ek Rxy] F IH]; [reflexivity|]. cbn [fst snd map] in *. subst k'. rewrite IH. f_equal. symmetry. apply E, Rxy.
Qed.
Lemma targets_order a b : reorder_body a b -> Permutation (targets a) (targets b).
Proof.
  intros [? ? (_ & E & _)|? ? (_ & E & _)|? ? ? ? (_ & E & _) (_ & E' & _)|? ? R|? ? R|? ? (_ & E2 & E3 & _)|? ? R|]; cbn [targets]; rewrite ?E, ?E'; try reflexivity.
  - eapply reordered_map; [|exact R]. cbn. intros k x y (E1 & E2 & _). rewrite E1, E2. reflexivity.
  - eapply reordered_map; [|exact R]. cbn. intros k x y (E1 & E2 & _). rewrite E1, E2. reflexivity.
  - rewrite E2, E3. reflexivity.
  - destruct R as (_ & -> & -> & -> & -> & -> & -> & -> & -> & ->). reflexivity.
Qed.
Lemma shape_drawing_order s t : reorder_shape s t -> Permutation (shape_drawing s) (shape_drawing t).
Proof.
  intros (E & T & B). unfold shape_drawing.
  assert (X : Permutation (DNode (ts_id s) (type_name (ts_body s)) (version_of (ts_body s))
      :: map (fun t => DEdge (ts_id s) (fst t) (lit "trait") (lit "true")) (ts_traits s)
      ++ map (fun t => DEdge (ts_id s) (snd t) (lit "member") (fst t)) (targets (ts_body s)))
     (DNode (ts_id t) (type_name (ts_body t)) (version_of (ts_body t))
      :: map (fun x => DEdge (ts_id t) (fst x) (lit "trait") (lit "true")) (ts_traits t)
      ++ map (fun x => DEdge (ts_id t) (snd x) (lit "member") (fst x)) (targets (ts_body t)))).
  { rewrite E, (type_name_order _ _ B), (version_of_order _ _ B). constructor. apply Permutation_app.
    - eapply reordered_map; [|exact T]. reflexivity.
    - apply Permutation_map, targets_order, B. }
  revert X. destruct B as [| | | | | | |b]; try (intros X; exact X). destruct b; try (intros X; exact X). reflexivity.
Qed.
Lemma drawing_order m1 m2 : reorder_model m1 m2 -> Permutation (drawing m1) (drawing m2).
Proof.
  intros (_ & _ & R). unfold drawing. eapply reordered_flat_map; [|exact R]. intros k x y _ S. cbn [snd]. apply shape_drawing_order, S.
Qed.
Lemma edges_perm a b : Permutation a b -> Permutation (edges a) (edges b).
Proof. intros P. unfold edges. apply filter_perm'; [reflexivity|exact P]. Qed.

(** ** PlantUML *)
Lemma same_items_perm a b : Permutation a b -> same_items a b.
Proof. intros P. exists b. split; [exact P|]. clear. induction b; constructor; [apply si_same|assumption]. Qed.
Lemma same_items_app a b c d : same_items a b -> same_items c d -> same_items (a ++ c) (b ++ d).
Proof. intros (x & P & F) (y & Q & G). exists (x ++ y). split; [apply Permutation_app; assumption|apply Forall2_app; assumption]. Qed.
Lemma same_items_cons i j a b : same_item i j -> same_items a b -> same_items (i :: a) (j :: b).
Proof. intros S (x & P & F). exists (i :: x). split; [constructor; exact P|constructor; assumption]. Qed.
Lemma same_items_move a a' b : Permutation a a' -> same_items a' b -> same_items a b.
Proof. intros P (x & Q & F). exists x. split; [etransitivity; eassumption|exact F]. Qed.
Lemma same_items_flat {A} (f g : A -> list item) l : (forall x, In x l -> same_items (f x) (g x)) -> same_items (flat_map f l) (flat_map g l).
Proof.
  induction l as [|x l IH]; intros E; cbn [flat_map]; [apply same_items_perm; reflexivity|]. apply same_items_app; [apply E; left; reflexivity|].
  apply IH. intros y I. apply E. right. exact I.
Qed.
Lemma same_items_reordered {K V} (R : V -> V -> Prop) (f g : K * V -> list item) a b :
  (forall k x y, In (k, x) a -> R x y -> same_items (f (k, x)) (g (k, y))) -> reordered R a b -> same_items (flat_map f a) (flat_map g b).
Proof.
  intros E (a' & P & F). apply same_items_move with (flat_map f a'); [apply Permutation_flat_map, P|].
  assert (E' : forall k x y, In (k, x) a' -> R x y -> same_items (f (k, x)) (g (k, y))).
  { intros k x y I. apply E. eapply Permutation_in; [apply Permutation_sym, P|exact I]. }
  clear E P. revert E'. induction F as [|[k x] [k' y] a' b [Ek Rxy] F IH]; intros E'; cbn [flat_map]; [apply same_items_perm; reflexivity|].
  cbn [fst snd] in Ek, Rxy. subst k'. apply same_items_app; [apply E'; [left; reflexivity|exact Rxy]|].
  apply IH. intros k2 x2 y2 I. apply E'. right. exact I.
Qed.

Section Uml.
  Context `{Hasher}.
  Variables (f64_str : Z -> str) (debug_str : str -> str) (expand : bool).
  Lemma trait_value_order v w : reorder_trait_value v w -> trait_value f64_str v = trait_value f64_str w.
  Proof. destruct v as [v|], w as [w|]; cbn; intros R; try contradiction; [|reflexivity]. destruct R; reflexivity. Qed.
  Lemma trait_lines_order a b : reorder_traits a b -> Permutation (trait_lines f64_str a) (trait_lines f64_str b).
  Proof.
    intros R. unfold trait_lines.
    assert (X : Permutation (map (fun t => "@"%char :: id_text (fst t) ++ trait_value f64_str (snd t)) (filter shown a))
                            (map (fun t => "@"%char :: id_text (fst t) ++ trait_value f64_str (snd t)) (filter shown b))).
    { rewrite !filter_flat_map, !flat_map_concat_map, !concat_map, !map_map, <- !flat_map_concat_map. eapply reordered_flat_map; [|exact R].
      intros k x y _ Rxy. unfold shown. cbn [fst snd]. destruct (negb (sid_eqb k error_api) && _); cbn; [|reflexivity]. rewrite (trait_value_order _ _ Rxy). reflexivity. }
    destruct (filter shown a), (filter shown b); cbn [map] in X |- *; try (apply Permutation_length in X; discriminate X); [reflexivity|].
    apply (Permutation_app_tail [lit ".."]) in X. exact X.
  Qed.
  Lemma documentation_order a b : reorder_traits a b -> Permutation (documentation a) (documentation b).
  Proof.
    intros R. unfold documentation. eapply reordered_flat_map; [|exact R]. intros k x y _ Rxy. cbn [fst snd].
    destruct (sid_eqb k error_api); [reflexivity|]. destruct (sid_eqb k documentation_api); [|reflexivity].
    destruct x as [x|], y as [y|]; cbn in Rxy; try contradiction; [|reflexivity]. destruct Rxy; reflexivity.
  Qed.
  Lemma has_trait_order t a b : reorder_traits a b -> has_trait t a = has_trait t b.
  Proof. intros R. unfold has_trait. rewrite !contains_keys. apply existsb_perm. eapply reordered_keys, R. Qed.

  Section Pair.
    Variables (m1 m2 : model).
    Hypotheses (K : keys_ok m1) (R : reorder_model m1 m2).
    Lemma shown_type_order id : shown_type m1 id = shown_type m2 id.
    Proof.
      unfold shown_type. pose proof (model_shape_order m1 m2 id K R) as G. destruct (model_shape m1 id) as [[i t b]|], (model_shape m2 id) as [[i' t' b']|]; cbn in G; try contradiction; [|reflexivity].
      destruct G as (_ & _ & B). cbn in B. destruct B as [? ? (_ & E & _)|? ? (_ & E & _)|? ? ? ? (_ & E & _) (_ & E' & _)| | | | |]; rewrite ?E, ?E'; reflexivity.
    Qed.
    Lemma method_order l id : method m1 l id = method m2 l id.
    Proof.
      unfold method. pose proof (model_shape_order m1 m2 id K R) as G. destruct (model_shape m1 id) as [[i t b]|], (model_shape m2 id) as [[i' t' b']|]; cbn in G; try contradiction; [|reflexivity].
      destruct G as (Ei & _ & B). cbn in Ei, B. subst i'. destruct B as [| | | | | | |b]; try reflexivity. destruct b; try reflexivity.
      destruct (op_input o), (op_output o); rewrite ?shown_type_order; reflexivity.
    Qed.
    Lemma methods_order h l : methods m1 h l = methods m2 h l.
    Proof. unfold methods. destruct l; [reflexivity|]. f_equal. apply map_ext. intros x. apply method_order. Qed.
    Lemma shape_diagram_order s t : reorder_shape s t -> length (documentation (ts_traits s)) <= 1 ->
      same_items (shape_diagram f64_str debug_str expand m1 s) (shape_diagram f64_str debug_str expand m2 t).
    Proof.
      intros (E & T & B) D.
      assert (ED : documentation (ts_traits s) = documentation (ts_traits t)).
      { pose proof (documentation_order _ _ T) as P. destruct (documentation (ts_traits s)) as [|d [|d' l]]; [| |cbn in D; lia].
        - apply Permutation_nil in P. rewrite P. reflexivity.
        - apply Permutation_length_1_inv in P. rewrite P. reflexivity. }
      pose proof (trait_lines_order _ _ T) as TL.
      assert (CL : forall u (x y : members), reordered reorder_member x y -> same_item (class_of f64_str s u x) (class_of f64_str t u y)).
      { intros u x y RM. unfold class_of. rewrite E, (has_trait_order _ _ _ T), (has_trait_order error_api _ _ T).
        assert (P : Permutation (trait_lines f64_str (ts_traits s) ++ map (fun e => field (ms_id (snd e)) (id_text (ms_target (snd e)))) x)
                                (trait_lines f64_str (ts_traits t) ++ map (fun e => field (ms_id (snd e)) (id_text (ms_target (snd e)))) y)).
        { apply Permutation_app; [exact TL|]. eapply reordered_map; [|exact RM]. cbn. intros k a b (E1 & E2 & _). rewrite E1, E2. reflexivity. }
        destruct (has_trait _ _); apply si_class; exact P. }
      unfold shape_diagram. rewrite ED, E. destruct B as [| | |? ? RM|? ? RM|? ? (E1 & E2 & E3 & _)|a b (P & RR)|b].
      - apply same_items_perm; reflexivity.
      - apply same_items_perm; reflexivity.
      - apply same_items_perm; reflexivity.
      - apply same_items_cons; [apply CL, RM|apply same_items_perm; reflexivity].
      - apply same_items_cons; [apply CL, RM|apply same_items_perm; reflexivity].
      - rewrite E1, E2, E3. apply same_items_cons; [|apply same_items_perm; reflexivity]. apply si_class. apply Permutation_app; [exact TL|].
        rewrite (map_ext _ _ (method_order None)). reflexivity.
      - assert (EL : lifecycle a = lifecycle b) by (unfold lifecycle; destruct RR as (-> & -> & -> & -> & -> & -> & _); reflexivity).
        destruct RR as (_ & _ & _ & _ & _ & _ & E1 & E2 & E3). rewrite EL, E1, E2, E3, !methods_order, (map_ext _ _ (method_order (Some (lit "create")))).
        apply same_items_cons; [|apply same_items_perm; reflexivity]. apply si_class. apply Permutation_app; [exact TL|].
        apply Permutation_app; [|reflexivity]. apply Permutation_map, P.
      - destruct b; try (apply same_items_perm; reflexivity).
        + apply same_items_cons; [apply si_class, TL|apply same_items_perm; reflexivity].
        + apply same_items_cons; [apply CL, reordered_refl, reorder_member_refl|apply same_items_perm; reflexivity].
        + apply same_items_cons; [apply CL, reordered_refl, reorder_member_refl|apply same_items_perm; reflexivity].
        + apply same_items_cons; [|apply same_items_perm; reflexivity]. apply si_class. apply Permutation_app; [exact TL|].
          rewrite (map_ext _ _ (method_order None)). reflexivity.
        + rewrite !methods_order, (map_ext _ _ (method_order (Some (lit "create")))). apply same_items_cons; [|apply same_items_perm; reflexivity]. apply si_class. apply Permutation_app; [exact TL|reflexivity].
    Qed.
    Lemma diagram_order o1 o2 : Permutation o1 o2 -> (forall s, stored m1 s -> length (documentation (ts_traits s)) <= 1) ->
      same_items (diagram f64_str debug_str expand o1 m1) (diagram f64_str debug_str expand o2 m2).
    Proof.
      intros P D. unfold diagram. do 2 (apply same_items_app; [apply same_items_perm; reflexivity|]). apply same_items_app; [|apply same_items_perm; reflexivity].
      apply same_items_move with (flat_map (package_diagram f64_str debug_str expand m1) o2); [apply Permutation_flat_map, P|].
      apply same_items_flat. intros ns _. unfold package_diagram. apply same_items_cons; [apply si_same|]. apply same_items_app; [|apply same_items_perm; reflexivity].
      destruct R as (_ & _ & RS). eapply same_items_reordered; [|exact RS]. intros k x y I Rxy. cbn [snd]. apply shape_diagram_order; [exact Rxy|]. apply D. exists k. exact I.
    Qed.
    Lemma operations_known_order : operations_known m1 -> operations_known m2.
    Proof.
      intros O k s id I Io. destruct R as (_ & _ & l & P & F). destruct (forall2_in_r _ _ _ _ F I) as ([k' s'] & I' & Ek & RS). cbn in Ek, RS. subst k'.
      apply (Permutation_in _ (Permutation_sym P)) in I'. destruct (O k s' id I') as (i & ts & o & G).
      { destruct RS as (_ & _ & B). destruct B as [| | | | |? ? (_ & E & _)|? ? RR|]; cbn in Io |- *; try exact Io; [rewrite E; exact Io|].
        unfold lifecycle in *. destruct RR as (_ & -> & -> & -> & -> & -> & -> & -> & -> & _). exact Io. }
      pose proof (model_shape_order m1 m2 id K R) as Q. rewrite G in Q. destruct (model_shape m2 id) as [[i' ts' b']|]; cbn in Q; [|destruct Q].
      destruct Q as (_ & _ & B). cbn in B. inversion B; subst. eauto.
    Qed.
  End Pair.
End Uml.

(** ** RDF *)
Lemma stands_for_same g o : forall t o', stands_for g t o -> same_obj o o' -> stands_for g t o'.
Proof.
  induction o as [x|ps IH] using obj_ind'; intros t o' S E.
  - inversion E; subst. exact S.
  - inversion E as [|? qs A B]; subst. inversion S as [|n ? C D]; subst. rewrite Forall_forall in IH. constructor.
    + intros p o' I. destruct (B _ _ I) as (o & Io & Eo). destruct (C _ _ Io) as (t & It & St). exists t. split; [exact It|]. exact (IH _ Io _ _ St Eo).
    + intros p t I. destruct (D _ _ I) as (o & Io & St). destruct (A _ _ Io) as (o' & Io' & Eo). exists o'. split; [exact Io'|]. exact (IH _ Io _ _ St Eo).
Qed.
Lemma says_same g s ps qs : same_obj (ONode ps) (ONode qs) -> says g s ps -> says g s qs.
Proof.
  intros E [C D]. inversion E as [|? ? A B]; subst. split.
  - intros p o' I. destruct (B _ _ I) as (o & Io & Eo). destruct (C _ _ Io) as (t & It & St). exists t. split; [exact It|]. eapply stands_for_same; eassumption.
  - intros p t I. destruct (D _ _ I) as (o & Io & St). destruct (A _ _ Io) as (o' & Io' & Eo). exists o'. split; [exact Io'|]. eapply stands_for_same; eassumption.
Qed.
Lemma same_obj_refl o : same_obj o o.
Proof. induction o as [t|ps IH] using obj_ind'; [constructor|]. rewrite Forall_forall in IH. constructor; intros p o I; exists o; split; auto; exact (IH _ I). Qed.
Notation same_desc a b := (same_obj (ONode a) (ONode b)).
Lemma same_desc_app a b c d : same_desc a b -> same_desc c d -> same_desc (a ++ c) (b ++ d).
Proof.
  intros A C. inversion A as [|? ? A1 A2]; subst. inversion C as [|? ? C1 C2]; subst. constructor; intros p o I; apply in_app_iff in I as [I|I].
  - destruct (A1 _ _ I) as (o' & I' & E). exists o'. split; [apply in_app_iff; auto|exact E].
  - destruct (C1 _ _ I) as (o' & I' & E). exists o'. split; [apply in_app_iff; auto|exact E].
  - destruct (A2 _ _ I) as (o' & I' & E). exists o'. split; [apply in_app_iff; auto|exact E].
  - destruct (C2 _ _ I) as (o' & I' & E). exists o'. split; [apply in_app_iff; auto|exact E].
Qed.
Lemma same_desc_cons p o o' a b : same_obj o o' -> same_desc a b -> same_desc ((p, o) :: a) ((p, o') :: b).
Proof.
  intros E A. change (same_desc ([(p, o)] ++ a) ([(p, o')] ++ b)). apply same_desc_app; [|exact A].
  constructor; intros q x [I|[]]; injection I as <- <-; eexists; split; try (left; reflexivity); exact E.
Qed.
Lemma same_desc_perm (a b : list (iri * obj)) : Permutation a b -> same_desc a b.
Proof.
  intros P. constructor; intros p o I; exists o; (split; [|apply same_obj_refl]); [apply (Permutation_in _ P I)|apply (Permutation_in _ (Permutation_sym P) I)].
Qed.
Lemma same_obj_trans a : forall b c, same_obj a b -> same_obj b c -> same_obj a c.
Proof.
  induction a as [t|ps IH] using obj_ind'; intros b c A B; inversion A as [|? qs A1 A2]; subst; [exact B|]. inversion B as [|? rs B1 B2]; subst.
  rewrite Forall_forall in IH. constructor.
  - intros p o I. destruct (A1 _ _ I) as (o1 & I1 & E1). destruct (B1 _ _ I1) as (o2 & I2 & E2). exists o2. split; [exact I2|]. exact (IH _ I _ _ E1 E2).
  - intros p o I. destruct (B2 _ _ I) as (o1 & I1 & E1). destruct (A2 _ _ I1) as (o2 & I2 & E2). exists o2. split; [exact I2|]. exact (IH _ I2 _ _ E2 E1).
Qed.
Lemma perm_same_obj o : forall o', perm_obj o o' -> same_obj o o'.
Proof.
  induction o as [t|ps IH] using obj_ind'; intros o' R; inversion R as [|? qs (c & P & F)]; subst; [constructor|]. rewrite Forall_forall in IH.
  constructor; intros p x I.
  - apply (Permutation_in _ P) in I. destruct (forall2_in_l _ _ _ _ F I) as ([p' y] & Iy & E & Rxy). cbn in E, Rxy. subst p'. exists y. split; [exact Iy|].
    apply (IH (p, x)); [exact (Permutation_in _ (Permutation_sym P) I)|exact Rxy].
  - destruct (forall2_in_r _ _ _ _ F I) as ([p' y] & Iy & E & Rxy). cbn in E, Rxy. subst p'. apply (Permutation_in _ (Permutation_sym P)) in Iy.
    exists y. split; [exact Iy|]. exact (IH (p, y) Iy _ Rxy).
Qed.

Section Rdf.
  Variable f64_str : Z -> str.
  Lemma shape_description_order s t : few_identifiers (ts_body s) -> reorder_shape s t -> same_desc (shape_description f64_str s) (shape_description f64_str t).
  Proof. intros F R. apply perm_same_obj. constructor. apply description_perm; assumption. Qed.
  Lemma same_obj_sym o : forall o', same_obj o o' -> same_obj o' o.
  Proof.
    induction o as [t|ps IH] using obj_ind'; intros o' S; inversion S as [|? qs A B]; subst; [constructor|]. rewrite Forall_forall in IH. constructor; intros p x I.
    - destruct (B _ _ I) as (o & Io & E). exists o. split; [exact Io|]. exact (IH _ Io _ E).
    - destruct (A _ _ I) as (o & Io & E). exists o. split; [exact Io|]. exact (IH _ I _ E).
  Qed.
  Lemma resolved_order m1 m2 : reorder_model m1 m2 ->
    (forall s, In s (resolved m1) -> exists t, In t (resolved m2) /\ reorder_shape s t)
    /\ (forall t, In t (resolved m2) -> exists s, In s (resolved m1) /\ reorder_shape s t).
  Proof.
    intros (_ & _ & l & P & F). unfold resolved, shapes, hm_values. split; intros s I; apply filter_In in I as [I U]; apply in_map_iff in I as ([k x] & E & I); cbn in E; subst x.
    - apply (Permutation_in _ P) in I. destruct (forall2_in_l _ _ _ _ F I) as ([k' t] & It & _ & R). cbn in R. exists t. split; [|exact R].
      apply filter_In. split; [apply in_map_iff; exists (k', t); auto|]. destruct R as (_ & _ & B). rewrite <- (kept_unresolved _ _ B). exact U.
    - destruct (forall2_in_r _ _ _ _ F I) as ([k' t] & It & _ & R). cbn in R. exists t. apply (Permutation_in _ (Permutation_sym P)) in It. split; [|exact R].
      apply filter_In. split; [apply in_map_iff; exists (k', t); auto|]. destruct R as (_ & _ & B). rewrite (kept_unresolved _ _ B). exact U.
  Qed.
End Rdf.

(** ** The hypotheses carry over *)
Lemma In_order {K V} (R : V -> V -> Prop) (a b : list (K * V)) k y : reordered R a b -> In (k, y) b -> exists x, In (k, x) a /\ R x y.
Proof.
  intros (l & P & F) I. destruct (forall2_in_r _ _ _ _ F I) as ([k' x] & I' & E & Rxy). cbn in E, Rxy. subst k'.
  exists x. split; [apply (Permutation_in _ (Permutation_sym P)), I'|exact Rxy].
Qed.
Lemma traits_named_order a b : reorder_traits a b -> traits_named a -> traits_named b.
Proof. intros R V [k y] I. destruct (In_order _ _ _ _ _ R I) as (x & Ix & _). exact (V _ Ix). Qed.
Lemma member_valid_order a b : reorder_member a b -> member_valid a -> member_valid b.
Proof. intros (_ & E & T) [V W]. split; [rewrite <- E; exact V|exact (traits_named_order _ _ T W)]. Qed.
Lemma shape_valid_order s t : reorder_shape s t -> shape_valid s -> shape_valid t.
Proof.
  intros (E & T & B) (V & W & X). split; [rewrite <- E; exact V|]. split; [exact (traits_named_order _ _ T W)|].
  destruct B as [? ? M|? ? M|? ? ? ? M M'|? ? R|? ? R|? ? (_ & E2 & E3 & _)|? ? (P & RR)|]; cbn in X |- *.
  - exact (member_valid_order _ _ M X).
  - exact (member_valid_order _ _ M X).
  - destruct X. split; eapply member_valid_order; eassumption.
  - intros [k y] I. destruct (In_order _ _ _ _ _ R I) as (x & Ix & M). exact (member_valid_order _ _ M (X _ Ix)).
  - intros [k y] I. destruct (In_order _ _ _ _ _ R I) as (x & Ix & M). exact (member_valid_order _ _ M (X _ Ix)).
  - rewrite <- E2, <- E3. exact X.
  - destruct RR as (<- & <- & <- & <- & <- & <- & <- & <- & <-). destruct X as [X Y]. split; [|exact Y].
    intros e I. apply X. exact (Permutation_in _ (Permutation_sym P) I).
  - exact X.
Qed.
Lemma tame_order m1 m2 : reorder_model m1 m2 -> tame m1 -> tame m2.
Proof.
  intros (_ & _ & RS) T k t I. destruct (In_order _ _ _ _ _ RS I) as (s & Is & E & RT & B). destruct (T k s Is) as [(V1 & V2 & V3 & V4) (W1 & W2 & W3)].
  split; [split; [rewrite <- E; exact V1|split; [|split]]|split; [|split]].
  - intros x v J. destruct (In_order _ _ _ _ _ RT J) as (w & Jw & _). exact (V2 _ _ Jw).
  - intros n x J. apply V3. exact (Permutation_in _ (Permutation_sym (targets_order _ _ B)) J).
  - intros r n x Er J. inversion B as [| | | | | |r0 r' (P & _) E1 E2|b E1 E2].
    1-6: rewrite Er in *; discriminate.
    + rewrite Er in E2. injection E2 as ->. apply (V4 r0 n x (eq_sym E1)). exact (Permutation_in _ (Permutation_sym P) J).
    + apply (V4 r n x); [congruence|exact J].
  - intros x v J N. destruct (In_order _ _ _ _ _ RT J) as (w & Jw & Rw). destruct w as [w|]; cbn in Rw; [|contradiction].
    inversion Rw; subst. exact (W1 _ _ Jw N).
  - intros sv Es. inversion B as [| | | | |s0 s' (EV & _) E1 E2| |b E1 E2].
    1-5,7: rewrite Es in *; discriminate.
    + rewrite Es in E2. injection E2 as ->. rewrite <- EV. apply W2. symmetry. exact E1.
    + apply W2. congruence.
  - intros st d Es J. inversion B as [| | | | | | |b E1 E2]; try (rewrite Es in *; discriminate).
    apply (W3 st); [congruence|]. exact (Permutation_in _ (Permutation_sym (documentation_order _ _ RT)) J).
Qed.
