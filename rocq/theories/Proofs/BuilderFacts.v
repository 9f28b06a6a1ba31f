(** Facts about the model builder. *)
From Verif.Model Require Import Builder.
From Verif.Spec Require Import IdentitySpec BuilderSpec.
From Verif.Proofs Require Import HashMapFacts ValueFacts ShapeFacts ModelFacts.

(** ** Prelude names *)
Lemma contains_str_spec l s : contains_str l s = true <-> exists x, In x l /\ s = lit x.
Proof.
  unfold contains_str. rewrite existsb_exists. split.
  - intros (x & I & E). apply str_eqb_eq in E. eauto.
  - intros (x & I & ->). exists x. split; [assumption|apply str_eqb_refl].
Qed.
Lemma string_mem l x : existsb (String.eqb x) l = true <-> In x l.
Proof.
  rewrite existsb_exists. split.
  - intros (y & I & E). apply String.eqb_eq in E. subst. assumption.
  - intros I. exists x. split; [assumption|apply String.eqb_refl].
Qed.
Lemma sublist_by l1 l2 : forallb (fun x => existsb (String.eqb x) l2) l1 = true -> forall x, In x l1 -> In x l2.
Proof. rewrite forallb_forall. intros F x I. apply string_mem, F, I. Qed.
Lemma prelude_traits_spec n : contains_str prelude_traits n = true <-> prelude_trait n.
Proof.
  rewrite contains_str_spec. unfold prelude_trait. split; intros (x & I & E); exists x; (split; [|assumption]).
  - apply in_app_iff. revert x I E. assert (F := sublist_by prelude_traits (trait_names ++ trait_value_shapes) eq_refl). auto.
  - apply in_app_iff in I. revert x I E. assert (F := sublist_by (trait_names ++ trait_value_shapes) prelude_traits eq_refl). auto.
Qed.
Lemma prelude_shapes_spec n : contains_str prelude_shapes n = true <-> prelude_shape n.
Proof.
  rewrite contains_str_spec. unfold prelude_shape.
  set (direct := map snd prelude_simple). set (prim := map (String.append "Primitive") has_primitive).
  assert (A := sublist_by prelude_shapes (direct ++ prim) eq_refl).
  assert (B := sublist_by (direct ++ prim) prelude_shapes eq_refl).
  assert (L : forall p, lit (String.append "Primitive" p) = lit "Primitive" ++ lit p) by reflexivity.
  split.
  - intros (x & I & ->). apply A, in_app_iff in I as [I|I]; apply in_map_iff in I.
    + destruct I as ([t p] & <- & I). left. eauto.
    + destruct I as (p & <- & I). right. exists p. split; [assumption|apply L].
  - intros [(t & p & I & ->)|(p & I & ->)].
    + exists p. split; [|reflexivity]. apply B, in_app_iff. left. apply in_map_iff. exists (t, p). auto.
    + exists (String.append "Primitive" p). split; [|apply L]. apply B, in_app_iff. right. apply in_map_iff. eauto.
Qed.

Section WithHasher.
  Context `{Hasher}.

  Lemma name_key_equiv : equivb name_key_eqb.
  Proof.
    split.
    - intros [i|n]; cbn; [apply sid_key_refl|apply ident_key_refl].
    - intros [i|n] [j|m]; cbn; try reflexivity; [apply sid_key_sym|apply ident_key_sym].
    - intros [i|n] [j|m] [x|y]; cbn; try discriminate; [apply sid_key_trans|apply ident_key_trans].
  Qed.
  Hint Resolve name_key_equiv : equivb.

  (** ** The invariant of builders *)
  Lemma builder_ok_new v ns b : builder_new v ns = Ok b -> builder_ok b.
  Proof.
    unfold builder_new. destruct (ns_from_str ns); cbn; try discriminate. intros [= <-].
    split; [exact I|]. split; [cbn; tauto|exact I].
  Qed.
  Lemma builder_ok_insert b s :
    (sb_body s = BReference -> exists q, sb_name s = Qualified q) -> builder_ok b -> builder_ok (bd_insert b s).
  Proof.
    intros R (D & K & M). split; [|split; [|exact M]]; cbn.
    - apply distinct_insert; auto with equivb.
    - intros k s' I. apply hm_insert_In in I as [I|(-> & E & _)]; [apply K; assumption|split; assumption|apply name_key_equiv].
  Qed.
  Lemma builder_ok_update b k s s0 :
    hm_get name_key_eqb k (bd_shapes b) = Some s0 -> sb_name s = sb_name s0 ->
    (sb_body s = BReference -> sb_body s0 = BReference) ->
    builder_ok b -> builder_ok (bd_update b k s).
  Proof.
    intros G N R (D & K & M). split; [|split; [|exact M]]; cbn.
    - apply distinct_update; auto with equivb.
    - intros k' s' I. apply hm_update_In in I as [I|(v & I & -> & E)]; [apply K; assumption|].
      pose proof (hm_get_In_key _ name_key_equiv _ _ _ _ D I E) as G'. rewrite G in G'. injection G' as <-.
      rewrite N. destruct (K _ _ I) as [A B]. split; [assumption|]. auto.
  Qed.
  Lemma apply_to_member_frame s m t s' :
    apply_to_member s m t = Some s' -> sb_name s' = sb_name s /\ sb_traits s' = sb_traits s /\ sb_body s' <> BReference.
  Proof.
    unfold apply_to_member. destruct (sb_body s); cbn; try discriminate;
      repeat match goal with |- context [if ?c then _ else _] => destruct c end; cbn; try discriminate;
      try (intros [= <-]; repeat split; discriminate);
      destruct (update_first _ _ ms); cbn; try discriminate; intros [= <-]; repeat split; discriminate.
  Qed.
  Lemma apply_qualified_ok b id t b' : builder_ok b -> apply_to_qualified b id t = Ok b' -> builder_ok b'.
  Proof.
    intros W. unfold apply_to_qualified. destruct (sid_member id) as [m|].
    - destruct (hm_get _ _ _) as [s|] eqn:G; [|discriminate]. destruct (apply_to_member s m t) as [s'|] eqn:A; [|discriminate].
      intros [= <-]. apply apply_to_member_frame in A as (N & _ & R). eapply builder_ok_update; eauto. contradiction.
    - destruct (hm_get _ _ _) as [s|] eqn:G; intros [= <-].
      + eapply builder_ok_update; eauto.
      + apply builder_ok_insert; [|assumption]. cbn. eauto.
  Qed.
  Lemma builder_step_ok b o b' : op_ok o -> builder_ok b -> builder_step b o = Ok b' -> builder_ok b'.
  Proof.
    intros O W. destruct o as [s|id|s t|k v]; cbn in *.
    - intros [= <-]. apply builder_ok_insert; assumption.
    - unfold bd_uses, reference_new. destruct (sid_from_str id) as [i| |]; cbn; try discriminate. intros [= <-].
      apply builder_ok_insert; [|assumption]. cbn. eauto.
    - unfold bd_apply. destruct (shape_name_from_str s) as [[i|n]| |]; cbn [unwrap rbind]; try discriminate; cbn [apply_to].
      + apply apply_qualified_ok; assumption.
      + destruct (resolve_shape_name b (Local n) false) as [[i fr]| |]; cbn [unwrap rbind]; try discriminate.
        apply apply_qualified_ok. destruct fr; [|assumption]. apply builder_ok_insert; [|assumption]. cbn. eauto.
    - intros [= <-]. destruct W as (D & K & M). split; [exact D|]. split; [exact K|]. apply distinct_insert; auto with equivb.
  Qed.
  Lemma builder_run_ok ops : forall b b', Forall op_ok ops -> builder_ok b -> builder_run b ops = Ok b' -> builder_ok b'.
  Proof.
    induction ops as [|o ops IH]; intros b b' F W; cbn; [intros [= <-]; assumption|].
    inversion F as [|? ? F1 F2]; subst. destruct (builder_step b o) as [b1| |] eqn:S; cbn; try discriminate.
    apply IH; [assumption|]. eapply builder_step_ok; eauto.
  Qed.

  (** ** Resolution *)
  Lemma matching_In b n k :
    In k (matching_references b n) <-> exists s, In (k, s) (bd_shapes b) /\ sb_body s = BReference /\ same_name (name_of k) n.
  Proof.
    unfold matching_references. rewrite filter_In, in_map_iff. unfold same_name. split.
    - intros [([k' s] & <- & I) E]. apply filter_In in I as [I R]. cbn in *. exists s. split; [assumption|].
      split; [|apply ident_eqb_spec; assumption]. unfold is_reference in R. destruct (sb_body s); try discriminate. reflexivity.
    - intros (s & I & R & E). split; [|apply ident_eqb_spec; assumption]. exists (k, s). split; [reflexivity|].
      apply filter_In. split; [assumption|]. unfold is_reference. cbn. rewrite R. reflexivity.
  Qed.
  Lemma reference_key b k s : builder_ok b -> In (k, s) (bd_shapes b) -> sb_body s = BReference -> exists q, k = Qualified q.
  Proof.
    intros (_ & K & _) I R. destruct (K _ _ I) as [E Q]. destruct (Q R) as [q Eq]. rewrite Eq in E.
    destruct k; cbn in E; [eauto|discriminate].
  Qed.
  Lemma matching_import b n k : builder_ok b -> (In k (matching_references b n) <-> exists q, k = Qualified q /\ import_of b n q).
  Proof.
    intros W. rewrite matching_In. unfold import_of, imported. split.
    - intros (s & I & R & E). destruct (reference_key _ _ _ W I R) as [q ->]. exists q. split; [reflexivity|]. cbn in E. eauto.
    - intros (q & -> & (s & I & R) & E). eauto.
  Qed.
  Lemma matching_NoDup b n : builder_ok b -> NoDup (matching_references b n).
  Proof.
    intros (D & _). unfold matching_references. apply NoDup_filter.
    assert (F : NoDup (map fst (bd_shapes b))).
    { induction (bd_shapes b) as [|[k s] l IH]; cbn; [constructor|]. destruct D as [D1 D2]. constructor; [|auto].
      intros I. apply in_map_iff in I as ([k' s'] & <- & I). specialize (D1 _ _ I). cbn in D1.
      rewrite (eqv_refl _ name_key_equiv) in D1. discriminate. }
    induction (bd_shapes b) as [|[k s] l IH]; cbn; [constructor|]. inversion F as [|? ? N F']; subst. cbn in D. destruct D as [D1 D2].
    destruct (is_reference s); cbn; auto. constructor; [|auto]. intros I. apply N. apply in_map_iff in I as (e & <- & I).
    apply filter_In in I as [I _]. apply in_map. assumption.
  Qed.
  Lemma declared_spec b n : hm_contains name_key_eqb (Local n) (bd_shapes b) = true <-> declared b n.
  Proof.
    unfold hm_contains, declared. split.
    - destruct (hm_get _ _ _) as [s|] eqn:G; [|discriminate]. intros _.
      apply hm_get_Some_In in G as ([q|n'] & I & E); [discriminate|]. eauto.
    - intros (n' & s & I & E). destruct (hm_get name_key_eqb (Local n) (bd_shapes b)) eqn:G; [reflexivity|].
      rewrite hm_get_None_In in G. specialize (G _ _ I). cbn in G. congruence.
  Qed.
  Lemma prelude_spec t n :
    (negb t && contains_str prelude_shapes n) || (t && contains_str prelude_traits n) = true <-> in_prelude t n.
  Proof.
    pose proof (prelude_traits_spec n) as A. pose proof (prelude_shapes_spec n) as B. unfold in_prelude.
    generalize dependent (contains_str prelude_shapes n). generalize dependent (contains_str prelude_traits n).
    intros x X y Y. destruct t, x, y; tauto.
  Qed.

  Lemma resolve_sound b n t : builder_ok b -> resolution b t n (resolve_shape_name b n t).
  Proof.
    intros W. destruct n as [q|n]; cbn [resolve_shape_name].
    - unfold sid_is_member. destruct (sid_member q) eqn:M; [eapply rn_member; eauto|apply rn_absolute; assumption].
    - pose proof (matching_import b n) as M. pose proof (matching_NoDup b n W) as ND.
      destruct (matching_references b n) as [|k1 [|k2 l]] eqn:L.
      + assert (N : forall q, ~ import_of b n q).
        { intros q I. apply (proj2 (M (Qualified q) W)). eauto. }
        destruct (hm_contains _ _ _) eqn:C; [apply declared_spec in C; apply rn_declared; assumption|].
        assert (ND' : ~ declared b n) by (rewrite <- declared_spec, C; discriminate).
        destruct (_ || _) eqn:P.
        * apply prelude_spec in P. apply rn_prelude; assumption.
        * apply rn_unknown; auto. rewrite <- prelude_spec, P. discriminate.
      + destruct (proj1 (M k1 W) (or_introl eq_refl)) as (q & -> & I). apply rn_import; [assumption|].
        intros q' I'. destruct (proj2 (M (Qualified q') W)) as [E|[]]; eauto. congruence.
      + destruct (proj1 (M k1 W) (or_introl eq_refl)) as (q & -> & I).
        destruct (proj1 (M k2 W) (or_intror (or_introl eq_refl))) as (q' & -> & I').
        apply (rn_ambiguous _ _ _ q q'); auto. inversion ND as [|? ? N _]; subst. intros ->. apply N. left. reflexivity.
  Qed.
  Lemma resolution_fun b t n r1 r2 : resolution b t n r1 -> resolution b t n r2 -> r1 = r2.
  Proof.
    intros A B. destruct A; inversion B; subst; try congruence;
      try (exfalso; match goal with h : forall q, ~ import_of _ _ q, i : import_of _ _ _ |- _ => exact (h _ i) end); try contradiction.
    - match goal with U : forall q', import_of _ _ q' -> q' = ?q, i : import_of _ _ ?x |- Ok (?q, _) = Ok (?x, _) => rewrite (U _ i); reflexivity end.
    - exfalso. match goal with N : ?x <> ?y |- _ => apply N end. transitivity q; [|symmetry]; auto.
    - exfalso. match goal with N : ?x <> ?y |- _ => apply N end. transitivity q0; [|symmetry]; auto.
  Qed.
  Lemma resolve_spec b n t r : builder_ok b -> (resolve_shape_name b n t = r <-> resolution b t n r).
  Proof.
    intros W. split; [intros <-; apply resolve_sound; assumption|]. intros R. eapply resolution_fun; [apply resolve_sound; assumption|exact R].
  Qed.
  Lemma names_to_fun b t n i j : names_to b t n i -> names_to b t n j -> i = j.
  Proof. intros [f A] [g B]. pose proof (resolution_fun _ _ _ _ _ A B). congruence. Qed.

  Lemma resolution_no_panic b t n : ~ resolution b t n Panic.
  Proof. intros R. inversion R. Qed.

  Lemma su_with_members_list l : su_with_members l = hm_from_list ident_key_eqb (map (fun x => (ms_id x, x)) l).
  Proof.
    unfold su_with_members, hm_from_list, su_add_member. generalize (@nil (str * member_shape)).
    induction l as [|m l IH]; intros acc; cbn; [reflexivity|]. apply IH.
  Qed.

  (** ** The making monad *)
  Section Making.
    Variable b : builder.
    Hypothesis OK : builder_ok b.

    Definition fresh_in (Ms : list (bool * shape_name)) (x : shape_id) : Prop :=
      exists t n, In (t, n) Ms /\ resolution b t n (Ok (x, true)).
    Definition grows (Ms : list (bool * shape_name)) (rs rs' : list shape_id) : Prop :=
      incl rs rs' /\ (forall x, In x rs' -> In x rs \/ fresh_in Ms x)
      /\ (forall x, fresh_in Ms x -> exists y, In y rs' /\ sid_key_eqb y x = true).
    Definition resolved_all (Ms : list (bool * shape_name)) : Prop := forall t n, In (t, n) Ms -> exists id, names_to b t n id.
    Definition makes {A} (m : making A) (P : A -> Prop) (Ms : list (bool * shape_name)) (W : Prop) : Prop :=
      forall rs, match m rs with
                 | Ok (a, rs') => P a /\ grows Ms rs rs' /\ resolved_all Ms /\ W
                 | Err e => exists t n, In (t, n) Ms /\ resolution b t n (Err e)
                 | Panic => ~ W
                 end.

    Lemma makes_give A (a : A) (P : A -> Prop) : P a -> makes (give a) P [] True.
    Proof.
      intros Pa rs. cbn. repeat split; auto; try (intros x (t & n & [] & _)).
      - intros x Ix. exact Ix.
      - intros t n [].
    Qed.
    Lemma grows_trans M1 M2 r1 r2 r3 : grows M1 r1 r2 -> grows M2 r2 r3 -> grows (M1 ++ M2) r1 r3.
    Proof.
      intros (A1 & B1 & C1) (A2 & B2 & C2). split; [eapply incl_tran; eauto|]. split.
      - intros x Ix. apply B2 in Ix as [Ix|(t & n & Ix & R)].
        + apply B1 in Ix as [Ix|(t & n & Ix & R)]; [auto|]. right. exists t, n. split; [apply in_app_iff; auto|assumption].
        + right. exists t, n. split; [apply in_app_iff; auto|assumption].
      - intros x (t & n & Ix & R). apply in_app_iff in Ix as [Ix|Ix].
        + destruct (C1 x) as (y & Iy & E); [exists t, n; auto|]. exists y. split; [apply A2; assumption|assumption].
        + apply C2. exists t, n. auto.
    Qed.
    Lemma makes_bind A B (m : making A) (f : A -> making B) P Q M1 M2 W1 W2 :
      makes m P M1 W1 -> (forall a, P a -> makes (f a) Q M2 W2) -> makes (and_then m f) Q (M1 ++ M2) (W1 /\ W2).
    Proof.
      intros Hm Hf rs. unfold and_then. specialize (Hm rs). destruct (m rs) as [[a r1]|e|].
      - destruct Hm as (Pa & G1 & R1 & Ha). specialize (Hf a Pa r1). destruct (f a r1) as [[c r2]|e|].
        + destruct Hf as (Q2 & G2 & R2 & Hb). split; [assumption|]. split; [eapply grows_trans; eauto|]. split; [|tauto].
          intros t n I0. apply in_app_iff in I0 as [I0|I0]; eauto.
        + destruct Hf as (t & n & I0 & R). exists t, n. split; [apply in_app_iff; auto|assumption].
        + tauto.
      - destruct Hm as (t & n & I0 & R). exists t, n. split; [apply in_app_iff; auto|assumption].
      - tauto.
    Qed.
    Lemma makes_weaken A (m : making A) (P P' : A -> Prop) Ms Ms' (W W' : Prop) :
      makes m P Ms W -> (forall a, P a -> P' a) -> (forall x, In x Ms <-> In x Ms') -> (W <-> W') -> makes m P' Ms' W'.
    Proof.
      intros Hm HP HM HW rs. specialize (Hm rs). destruct (m rs) as [[a r]|e|].
      - destruct Hm as (Pa & (G1 & G2 & G3) & R & Ha). split; [auto|].
        assert (FI : forall x, fresh_in Ms x <-> fresh_in Ms' x).
        { intros x. split; intros (t & n & I0 & R0); exists t, n; (split; [apply HM; assumption|assumption]). }
        split; [|split; [|tauto]].
        + split; [assumption|]. split.
          * intros x Ix. apply G2 in Ix as [Ix|Ix]; [auto|]. right. apply FI. assumption.
          * intros x Ix. apply G3, FI, Ix.
        + intros t n I0. apply R, HM, I0.
      - destruct Hm as (t & n & I0 & R). exists t, n. split; [apply HM; assumption|assumption].
      - tauto.
    Qed.
    Lemma makes_map A B (m : making A) (f : A -> B) (P : A -> Prop) (Q : B -> Prop) Ms W :
      makes m P Ms W -> (forall a, P a -> Q (f a)) -> makes (and_then m (fun a => give (f a))) Q Ms W.
    Proof.
      intros Hm HQ. eapply makes_weaken.
      - eapply makes_bind; [exact Hm|]. intros a Pa. apply (makes_give _ (f a) Q). auto.
      - auto.
      - intros x. rewrite app_nil_r. tauto.
      - tauto.
    Qed.
    Lemma makes_resolve t n : makes (resolve b t n) (names_to b t n) [(t, n)] True.
    Proof.
      intros rs. unfold resolve. pose proof (resolve_sound b n t OK) as R. destruct (resolve_shape_name b n t) as [[id f]|e|].
      - split; [exists f; assumption|]. split; [|split; [|trivial]].
        + assert (U : forall x, fresh_in [(t, n)] x -> x = id /\ f = true).
          { intros x (t' & n' & [E|[]] & R'). injection E as <- <-. pose proof (resolution_fun _ _ _ _ _ R R') as E. injection E as -> ->. auto. }
          destruct f.
          * unfold add_ref. destruct (existsb _ rs) eqn:X.
            -- split; [apply incl_refl|]. split; [auto|]. intros x F. apply U in F as [-> _]. apply existsb_exists in X. assumption.
            -- split; [apply incl_appl, incl_refl|]. split.
               ++ intros x Ix. apply in_app_iff in Ix as [Ix|[<-|[]]]; [auto|]. right. exists t, n. split; [left; reflexivity|assumption].
               ++ intros x F. apply U in F as [-> _]. exists id. split; [apply in_app_iff; right; left; reflexivity|apply sid_key_refl].
          * split; [apply incl_refl|]. split; [auto|]. intros x F. apply U in F as [_ F]. discriminate.
        + intros t' n' [E|[]]. injection E as <- <-. exists id, f. assumption.
      - exists t, n. split; [left; reflexivity|assumption].
      - exfalso. exact (resolution_no_panic _ _ _ R).
    Qed.
    Lemma makes_assert c : makes (assert_or_panic c) (fun _ => c = true) [] (c = true).
    Proof.
      intros rs. unfold assert_or_panic. destruct c; [|discriminate].
      exact (makes_give _ tt (fun _ => true = true) eq_refl rs) || (pose proof (makes_give _ tt (fun _ => true = true) eq_refl rs) as G; cbn in G; tauto).
    Qed.
    Lemma makes_each A B (f : A -> making B) (P : A -> B -> Prop) Mf (W : A -> Prop) l :
      (forall a, makes (f a) (P a) (Mf a) (W a)) -> makes (each f l) (Forall2 P l) (flat_map Mf l) (Forall W l).
    Proof.
      intros Hf. induction l as [|a l IH]; cbn [each flat_map].
      - eapply makes_weaken; [apply (makes_give _ [] (Forall2 P [])); constructor|auto|tauto|]. split; auto.
      - eapply makes_weaken.
        + eapply makes_bind; [apply Hf|]. intros x Px. eapply (makes_map _ _ _ _ _ (Forall2 P (a :: l))); [exact IH|]. intros xs Pxs. constructor; assumption.
        + auto.
        + tauto.
        + split; [intros [X Y]; constructor; assumption|]. intros X; inversion X; auto.
    Qed.
    Lemma makes_maybe A B (f : A -> making B) (P : A -> B -> Prop) Mf o :
      (forall a, makes (f a) (P a) (Mf a) True) ->
      makes (maybe f o) (opt_rel P o) (match o with Some a => Mf a | None => [] end) True.
    Proof.
      intros Hf. destruct o as [a|]; cbn [maybe].
      - eapply makes_map; [apply Hf|]. auto.
      - apply makes_give. exact I.
    Qed.
    Lemma makes_targets l : makes (each (resolve b false) l) (Forall2 (target_from b) l) (map (pair false) l) True.
    Proof.
      eapply makes_weaken.
      - apply (makes_each _ _ _ (target_from b) (fun n => [(false, n)]) (fun _ => True)). intros a. apply makes_resolve.
      - auto.
      - intros x. rewrite flat_map_concat_map, <- flat_map_concat_map. induction l; cbn; [tauto|]. rewrite IHl. tauto.
      - split; auto. intros _. induction l; constructor; auto.
    Qed.
    Lemma makes_target o : makes (maybe (resolve b false) o) (opt_rel (target_from b) o) (opt_mention o) True.
    Proof.
      eapply makes_weaken; [apply (makes_maybe _ _ _ (target_from b) (fun n => [(false, n)])); intros a; apply makes_resolve|auto| |tauto].
      destruct o; cbn; tauto.
    Qed.
    Lemma makes_traits l : makes (make_traits b l) (traits_from b l) (map (fun t => (true, tb_id t)) l) True.
    Proof.
      unfold make_traits. eapply makes_map.
      - eapply makes_weaken.
        + apply (makes_each _ _ _ (trait_from b) (fun t => [(true, tb_id t)]) (fun _ => True)). intros t.
          eapply makes_map; [apply makes_resolve|]. intros i Pi. split; [exact Pi|reflexivity].
        + intros ps F. exact F.
        + intros x. induction l; cbn; [tauto|]. rewrite IHl. tauto.
        + split; auto. intros _. induction l; constructor; auto.
      - intros ps F. exists ps. auto.
    Qed.
    Lemma makes_member m t :
      names_to b false (mb_target m) t ->
      makes (make_member b m t) (member_from b m) (map (fun t => (true, tb_id t)) (mb_traits m)) True.
    Proof.
      intros N. unfold make_member. eapply makes_map; [apply makes_traits|]. intros ts F. split; [reflexivity|]. split; [exact N|exact F].
    Qed.
    Lemma makes_full_member A (f : shape_id -> making A) m P Ms W :
      (forall t, names_to b false (mb_target m) t -> makes (f t) P (map (fun t => (true, tb_id t)) (mb_traits m) ++ Ms) W) ->
      makes (and_then (resolve b false (mb_target m)) f) P (member_mentions m ++ Ms) W.
    Proof.
      intros Hf. eapply makes_weaken; [eapply makes_bind; [apply makes_resolve|exact Hf]|auto|cbn; tauto|tauto].
    Qed.
    Lemma makes_members l : makes (make_members b l) (members_from b l) (flat_map member_mentions l) True.
    Proof.
      unfold make_members. eapply makes_map.
      - eapply makes_weaken.
        + apply (makes_each _ _ _ (member_from b) member_mentions (fun _ => True)). intros m.
          rewrite <- (app_nil_r (member_mentions m)). apply makes_full_member. intros t N. rewrite app_nil_r. apply makes_member, N.
        + intros ps F. exact F.
        + tauto.
        + split; auto. intros _. induction l; constructor; auto.
      - intros xs F. exists xs. split; [assumption|apply su_with_members_list].
    Qed.
    Lemma makes_list_member m t :
      names_to b false (mb_target m) t ->
      makes (make_list_member b m t) (member_from b m) (map (fun t => (true, tb_id t)) (mb_traits m)) (mb_name m = lit "member").
    Proof.
      intros N. unfold make_list_member. eapply makes_weaken.
      - eapply makes_bind; [apply makes_member, N|]. intros x Px.
        apply (makes_bind _ _ _ _ (fun _ => True) (member_from b m) [] [] (mb_name m = lit "member") True).
        + eapply makes_weaken; [apply makes_assert|trivial|tauto|]. destruct Px as (-> & _). apply str_eqb_eq.
        + intros _ _. apply makes_give, Px.
      - auto.
      - intros x. rewrite app_nil_r. tauto.
      - tauto.
    Qed.
    Lemma makes_list (K : member_shape -> shape_kind) bb m :
      (forall x, member_from b m x -> body_from b bb (K x)) ->
      makes (and_then (resolve b false (mb_target m)) (fun t => and_then (make_list_member b m t) (fun x => give (K x))))
            (body_from b bb) (member_mentions m) (mb_name m = lit "member").
    Proof.
      intros HK. rewrite <- (app_nil_r (member_mentions m)). apply makes_full_member. intros t N. rewrite app_nil_r.
      eapply makes_map; [apply makes_list_member, N|]. exact HK.
    Qed.
    Definition body_well (bb : builder_body) : Prop :=
      match bb with
      | BList m | BSet m => mb_name m = lit "member"
      | BService sv => svb_version sv <> []
      | _ => True
      end.
    Lemma makes_body bb : makes (make_body b bb) (body_from b (set_as_list bb)) (body_mentions bb) (body_well bb).
    Proof.
      destruct bb as [s|m|m|k v|ms|ms|s|o|r|]; cbn [make_body set_as_list body_mentions body_well].
      - apply makes_give. constructor.
      - apply makes_list. intros x F. constructor. assumption.
      - apply makes_list. intros x F. constructor. assumption.
      - eapply makes_weaken.
        + eapply makes_bind; [apply makes_resolve|]. intros kt Nk. eapply makes_bind; [apply makes_resolve|]. intros vt Nv.
          eapply makes_bind; [apply makes_member, Nk|]. intros x Fx. eapply makes_map; [apply makes_member, Nv|]. intros y Fy.
          exact (bf_map b k v x y Fx Fy).
        + auto.
        + intros x. unfold member_mentions. cbn. rewrite !in_app_iff. cbn. tauto.
        + tauto.
      - eapply makes_map; [apply makes_members|]. intros x F. constructor. assumption.
      - eapply makes_map; [apply makes_members|]. intros x F. constructor. assumption.
      - eapply makes_weaken.
        + eapply makes_bind; [apply makes_assert|]. intros _ _. eapply makes_bind; [apply makes_targets|]. intros ops Fo.
          eapply makes_map; [apply makes_targets|]. intros rs Fr. exact (bf_service b s ops rs Fo Fr).
        + auto.
        + intros x. rewrite map_app. cbn. tauto.
        + rewrite negb_true_iff, str_eqb_neq. tauto.
      - eapply makes_weaken.
        + eapply makes_bind; [apply makes_target|]. intros i Fi. eapply makes_bind; [apply makes_target|]. intros u Fu.
          eapply makes_map; [apply makes_targets|]. intros es Fe. exact (bf_operation b o i u es Fi Fu Fe).
        + auto.
        + tauto.
        + tauto.
      - eapply makes_weaken.
        + eapply makes_bind.
          { apply (makes_each _ _ _ (fun (e : str * shape_name) (i : str * shape_id) => fst i = fst e /\ target_from b (snd e) (snd i))
                     (fun e => [(false, snd e)]) (fun _ => True)).
            intros e. eapply makes_map; [apply makes_resolve|]. intros i Pi. split; [reflexivity|exact Pi]. }
          intros ids Fids.
          do 6 (eapply makes_bind; [apply makes_target|]; intros ? ?).
          do 2 (eapply makes_bind; [apply makes_targets|]; intros ? ?).
          eapply makes_map; [apply makes_targets|]. intros rs Frs. apply bf_resource; eassumption.
        + auto.
        + intros x. rewrite !map_app. cbn [flat_map]. rewrite !in_app_iff.
          assert (E : In x (flat_map (fun e : str * shape_name => [(false, snd e)]) (rsb_identifiers r)) <-> In x (map (fun e => (false, snd e)) (rsb_identifiers r))).
          { induction (rsb_identifiers r) as [|e l IHl]; cbn; [tauto|]. rewrite IHl. tauto. }
          rewrite E. cbn. tauto.
        + split; [auto|]. intros _. repeat split; auto. induction (rsb_identifiers r); constructor; auto.
      - apply makes_give. constructor.
    Qed.
    Definition shape_from (s : shape_builder) (sh : shape) : Prop :=
      own_id b s (ts_id sh) /\ traits_from b (sb_traits s) (ts_traits sh) /\ body_from b (set_as_list (sb_body s)) (ts_body sh).
    Lemma makes_shape s :
      (sb_body s = BReference -> exists q, sb_name s = Qualified q) ->
      makes (make_shape b s) (shape_from s) (mentions s) (well_built s).
    Proof.
      intros RQ. unfold make_shape. eapply makes_weaken.
      - eapply makes_bind.
        + instantiate (1 := True). instantiate (1 := match sb_body s with BReference => [] | _ => [(false, sb_name s)] end).
          instantiate (1 := own_id b s). unfold make_id, own_id. destruct (sb_body s); try apply makes_resolve.
          destruct (RQ eq_refl) as [q ->]. apply makes_give. reflexivity.
        + intros id Fid. eapply makes_bind; [apply makes_body|]. intros k Fk. eapply makes_map; [apply makes_traits|].
          intros ts Fts. exact (conj Fid (conj Fts Fk) : shape_from s (Shape id ts k)).
      - auto.
      - intros x. unfold mentions. tauto.
      - unfold well_built, body_well. tauto.
    Qed.

    (** ** Adding the shapes *)
    Definition adds (m : model) (shs : list shape) : model := fold_left (fun m s => fst (add_shape m s)) shs m.
    Definition all_mentions (l : list (shape_name * shape_builder)) : list (bool * shape_name) :=
      flat_map (fun e => mentions (snd e)) l.
    Lemma make_shapes_spec l : 
      (forall k s, In (k, s) l -> sb_body s = BReference -> exists q, sb_name s = Qualified q) ->
      forall m rs,
      match make_shapes b m l rs with
      | Ok (m', rs') =>
          exists shs, Forall2 shape_from (map snd l) shs /\ m' = adds m shs
                      /\ grows (all_mentions l) rs rs' /\ resolved_all (all_mentions l) /\ Forall well_built (map snd l)
      | Err e => exists t n, In (t, n) (all_mentions l) /\ resolution b t n (Err e)
      | Panic => ~ Forall well_built (map snd l)
                 \/ exists l1 s l2 shs sh, map snd l = l1 ++ s :: l2 /\ Forall2 shape_from l1 shs /\ shape_from s sh
                                          /\ snd (add_shape (adds m shs) sh) = Panic
      end.
    Proof.
      induction l as [|[k s] l IH]; intros R m rs; cbn [make_shapes].
      - exists []. cbn. destruct (makes_give _ tt (fun _ => True) I rs) as (_ & G & RA & _). split; [constructor|]. auto.
      - assert (Rs := R k s (or_introl eq_refl)). assert (Rl := fun k s i => R k s (or_intror i)). specialize (IH Rl).
        pose proof (makes_shape s Rs rs) as MS. unfold and_then. destruct (make_shape b s rs) as [[sh r1]|e|].
        + destruct MS as (F & G1 & R1 & W1). destruct (add_shape m sh) as [m1 res] eqn:A.
          assert (Em1 : m1 = adds m [sh]) by (cbn; rewrite A; reflexivity).
          destruct res as [u|e|].
          1,2: specialize (IH m1 r1); destruct (make_shapes b m1 l r1) as [[m2 r2]|e2|];
            [destruct IH as (shs & Fs & -> & G2 & R2 & W2); exists (sh :: shs); cbn [map snd];
             split; [constructor; assumption|]; split; [subst m1; reflexivity|];
             split; [eapply grows_trans; eauto|]; split;
             [intros t n J; apply in_app_iff in J as [J|J]; eauto|constructor; assumption]
            |destruct IH as (t & n & J & Q); exists t, n; split; [apply in_app_iff; right; exact J|exact Q]
            |destruct IH as [N|(l1 & s1 & l2 & shs & sh1 & E & Fs & F1 & P)];
             [left; intros X; inversion X; auto
             |right; exists (s :: l1), s1, l2, (sh :: shs), sh1; cbn [map snd]; rewrite E; split; [reflexivity|];
              split; [constructor; assumption|]; split; [assumption|]; subst m1; exact P]].
          right. exists [], s, (map snd l), [], sh. split; [reflexivity|]. split; [constructor|]. split; [assumption|]. cbn. rewrite A. reflexivity.
        + destruct MS as (t & n & J & Q). exists t, n. split; [apply in_app_iff; left; exact J|exact Q].
        + left. intros X; inversion X; auto.
    Qed.
  End Making.

  Lemma adds_app m l1 l2 : adds m (l1 ++ l2) = adds (adds m l1) l2.
  Proof. apply fold_left_app. Qed.
  Lemma adds_keys_ok l : forall m, keys_ok m -> keys_ok (adds m l).
  Proof. induction l as [|s l IH]; intros m K; cbn; [assumption|]. apply IH, add_shape_keys_ok, K. Qed.
  Lemma adds_metadata l : forall m, m_metadata (adds m l) = m_metadata m /\ m_version (adds m l) = m_version m.
  Proof.
    induction l as [|s l IH]; intros m; cbn; [auto|]. destruct (IH (fst (add_shape m s))) as [A B]. unfold adds in *.
    rewrite A, B, add_shape_metadata, add_shape_version. auto.
  Qed.
  Lemma adds_frame l : forall m x, Forall (fun s => sid_key_eqb (ts_id s) x = false) l -> model_shape (adds m l) x = model_shape m x.
  Proof.
    induction l as [|s l IH]; intros m x F; cbn; [reflexivity|]. inversion F as [|? ? F1 F2]; subst.
    unfold adds in IH. rewrite (IH _ x F2). apply add_shape_frame, F1.
  Qed.
  (** Every entry is one of the shapes added, up to its traits. *)
  Definition from_list (l : list shape) (id : shape_id) (e : shape) : Prop :=
    exists s, In s l /\ sid_key_eqb (ts_id s) id = true /\ ts_body e = ts_body s.
  Lemma add_shape_from m s l :
    (forall id e, model_shape m id = Some e -> from_list l id e) ->
    forall id e, model_shape (fst (add_shape m s)) id = Some e -> from_list (l ++ [s]) id e.
  Proof.
    intros Hm id e G.
    assert (Old : forall e', from_list l id e' -> from_list (l ++ [s]) id e').
    { intros e' (s0 & J & Q & B). exists s0. split; [apply in_app_iff; auto|auto]. }
    destruct (sid_key_eqb (ts_id s) id) eqn:K.
    2:{ rewrite add_shape_frame in G by assumption. auto. }
    destruct (model_shape m id) as [e0|] eqn:G0.
    - rewrite <- (model_shape_cong _ _ _ K) in G0.
      destruct (add_shape_existing m s e0 G0) as (e' & G' & _ & _ & B). rewrite (model_shape_cong _ _ _ K) in G'. rewrite (model_shape_cong _ _ _ K) in G0.
      assert (e' = e) by congruence. subst e'. destruct B as [B|B].
      + destruct (Hm _ _ G0) as (s0 & J & Q & B0). exists s0. split; [apply in_app_iff; auto|]. split; [assumption|congruence].
      + exists s. split; [apply in_app_iff; right; left; reflexivity|]. auto.
    - destruct (add_shape_cases m s) as [M U|W F|e1 W F N1 N2 E|e1 W F N1 N2 E|e1 ts r W F C A]; try congruence.
      + rewrite model_shape_insert, K in G. injection G as <-. exists s. split; [apply in_app_iff; right; left; reflexivity|]. auto.
      + rewrite (model_shape_cong _ _ _ K) in F. congruence.
  Qed.
  Lemma adds_from l2 : forall l1 m,
    (forall id e, model_shape m id = Some e -> from_list l1 id e) ->
    forall id e, model_shape (adds m l2) id = Some e -> from_list (l1 ++ l2) id e.
  Proof.
    induction l2 as [|s l2 IH]; intros l1 m Hm; cbn; [rewrite app_nil_r; assumption|].
    intros id e G. assert (X := IH (l1 ++ [s]) (fst (add_shape m s)) (add_shape_from m s l1 Hm) id e G).
    rewrite <- app_assoc in X. exact X.
  Qed.
  Lemma adds_from_empty l m : m_shapes m = [] -> forall id e, model_shape (adds m l) id = Some e -> from_list l id e.
  Proof.
    intros E. apply (adds_from l [] m). intros id e G. unfold model_shape in G. rewrite E in G. discriminate.
  Qed.
  (** Once there, an id stays; it is there once it has been added. *)
  Lemma adds_present l : forall m x, model_shape m x <> None -> model_shape (adds m l) x <> None.
  Proof.
    induction l as [|s l IH]; intros m x N; cbn; [assumption|]. apply IH.
    destruct (sid_key_eqb (ts_id s) x) eqn:K; [|rewrite add_shape_frame; assumption].
    destruct (model_shape m x) as [e|] eqn:G; [|congruence]. rewrite <- (model_shape_cong _ _ _ K) in G.
    destruct (add_shape_existing m s e G) as (e' & G' & _). rewrite (model_shape_cong _ _ _ K) in G'. congruence.
  Qed.
  Lemma add_shape_present m s :
    (sid_member (ts_id s) = None \/ ts_body s = KUnresolved) -> model_shape (fst (add_shape m s)) (ts_id s) <> None.
  Proof.
    intros W. destruct (model_shape m (ts_id s)) as [e|] eqn:G.
    - destruct (add_shape_existing m s e G) as (e' & G' & _). congruence.
    - destruct (add_shape_fresh m s G W) as [_ G']. congruence.
  Qed.

  (** The loop over new references. *)
  Definition bare (id : shape_id) : shape := Shape id [] KUnresolved.
  Lemma add_bare m id : add_shape m (bare id) = (match model_shape m id with Some _ => m | None => fst (add_shape m (bare id)) end, Ok tt).
  Proof.
    destruct (add_shape m (bare id)) as [m' r] eqn:A. pose proof (add_shape_cases m (bare id)) as C. rewrite A in C. cbn [fst snd] in C.
    destruct C as [M U|W F|e W F N1 N2 E|e W F N1 N2 E|e ts r W F C0 A0]; cbn in *; try congruence.
    - rewrite F. reflexivity.
    - injection A0 as <- <-. rewrite F. f_equal. unfold update_shape.
      replace (Shape (ts_id e) (ts_traits e) (merged_body (ts_body e) KUnresolved)) with e by (destruct e as [? ? []]; reflexivity).
      rewrite hm_update_same by assumption. destruct m; reflexivity.
  Qed.
  Lemma add_unresolved_adds ids : forall m, add_unresolved m ids = Ok (adds m (map bare ids)).
  Proof.
    induction ids as [|id ids IH]; intros m; cbn [add_unresolved map]; [reflexivity|].
    change (Shape id [] KUnresolved) with (bare id). destruct (add_shape m (bare id)) as [m' r] eqn:A.
    pose proof (add_bare m id) as B. rewrite A in B. injection B as _ ->. rewrite IH. unfold adds. cbn [fold_left]. rewrite A. reflexivity.
  Qed.
  Lemma adds_bare_existing ids : forall m x e, model_shape m x = Some e -> model_shape (adds m (map bare ids)) x = Some e.
  Proof.
    induction ids as [|id ids IH]; intros m x e G; cbn; [assumption|]. apply IH.
    destruct (sid_key_eqb id x) eqn:K; [|rewrite add_shape_frame; assumption].
    rewrite add_bare. rewrite (model_shape_cong _ _ _ K), G. exact G.
  Qed.
  (** The metadata. *)
  Definition meta_model (b : builder) : model :=
    fold_left (fun m kv => fst (add_metadata m (fst kv) (snd kv))) (bd_metadata b) (model_new (bd_version b)).
  Lemma meta_fold l : forall m,
    distinct str_eqb l -> (forall k v, In (k, v) l -> metadata_value m k = None) ->
    fold_left (fun m kv => fst (add_metadata m (fst kv) (snd kv))) l m = set_metadata m (m_metadata m ++ l).
  Proof.
    induction l as [|[k v] l IH]; intros m D N; cbn [fold_left].
    - rewrite app_nil_r. destruct m; reflexivity.
    - destruct D as [D1 D2]. cbn [fst snd]. pose proof (N k v (or_introl eq_refl)) as E.
      unfold add_metadata. rewrite E. cbn [fst]. unfold metadata_value in E. rewrite hm_insert_fresh by exact E.
      rewrite IH; [cbn; rewrite <- app_assoc; reflexivity|exact D2|].
      intros k' v' J. unfold metadata_value. cbn. apply hm_get_None_In. intros k0 v0 J0. apply in_app_iff in J0 as [J0|[J0|[]]].
      + specialize (N k' v' (or_intror J)). unfold metadata_value in N. rewrite hm_get_None_In in N. eauto.
      + injection J0 as <- <-. rewrite (eqv_sym _ str_eqb_equiv). eauto.
  Qed.
  Lemma meta_model_spec b : builder_ok b -> meta_model b = Model (bd_version b) (bd_metadata b) [].
  Proof. intros (_ & _ & D). unfold meta_model. rewrite meta_fold; [reflexivity|exact D|]. reflexivity. Qed.

  (** ** build *)
  Definition empty_with (b : builder) : model := Model (bd_version b) (bd_metadata b) [].
  Lemma build_spec b : builder_ok b ->
    match build b with
    | Ok m =>
        exists shs rs, Forall2 (shape_from b) (map snd (bd_shapes b)) shs
                       /\ m = adds (adds (empty_with b) shs) (map bare rs)
                       /\ (forall x, In x rs -> fresh_in b (all_mentions (bd_shapes b)) x)
                       /\ (forall x, fresh_in b (all_mentions (bd_shapes b)) x -> exists y, In y rs /\ sid_key_eqb y x = true)
                       /\ resolved_all b (all_mentions (bd_shapes b)) /\ Forall well_built (map snd (bd_shapes b))
    | Err e => exists t n, In (t, n) (all_mentions (bd_shapes b)) /\ resolution b t n (Err e)
    | Panic => ~ Forall well_built (map snd (bd_shapes b))
               \/ exists l1 s l2 shs sh, map snd (bd_shapes b) = l1 ++ s :: l2 /\ Forall2 (shape_from b) l1 shs /\ shape_from b s sh
                                        /\ snd (add_shape (adds (empty_with b) shs) sh) = Panic
    end.
  Proof.
    intros OK. unfold build. change (fold_left _ _ _) with (meta_model b). rewrite (meta_model_spec b OK). fold (empty_with b).
    assert (R : forall k s, In (k, s) (bd_shapes b) -> sb_body s = BReference -> exists q, sb_name s = Qualified q).
    { intros k s J. apply (proj1 (proj2 OK) k s J). }
    pose proof (make_shapes_spec b OK (bd_shapes b) R (empty_with b) []) as M.
    destruct (make_shapes b (empty_with b) (bd_shapes b) []) as [[m rs]|e|]; [|exact M|exact M].
    destruct M as (shs & F & -> & (_ & G2 & G3) & RA & W). rewrite add_unresolved_adds. exists shs, rs.
    split; [exact F|]. split; [reflexivity|]. split; [|auto]. intros x Ix. apply G2 in Ix as [[]|Ix]. exact Ix.
  Qed.

  (** Lists. *)
  Lemma Forall2_split {A B} (R : A -> B -> Prop) l1 a l2 bs :
    Forall2 R (l1 ++ a :: l2) bs -> exists b1 x b2, bs = b1 ++ x :: b2 /\ Forall2 R l1 b1 /\ R a x /\ Forall2 R l2 b2.
  Proof.
    intros F. apply Forall2_app_inv_l in F as (b1 & b2 & F1 & F2 & ->). inversion F2 as [|? x ? b3 Rx F3]; subst.
    exists b1, x, b3. auto.
  Qed.
  Lemma own_id_fun b s i j : own_id b s i -> own_id b s j -> i = j.
  Proof. unfold own_id. destruct (sb_body s); try apply names_to_fun. congruence. Qed.
  Lemma entry_unique b k s k' s' l1 l2 : builder_ok b -> bd_shapes b = l1 ++ (k, s) :: l2 -> In (k', s') (l1 ++ l2) -> k' <> k.
  Proof.
    intros (D & _) E J N. subst k'. apply (distinct_perm _ name_key_equiv _ ((k, s) :: l1 ++ l2)) in D.
    - destruct D as [D _]. specialize (D _ _ J). rewrite (eqv_refl _ name_key_equiv) in D. discriminate.
    - rewrite E. symmetry. apply Permutation.Permutation_middle.
  Qed.
  (** The shape built from a declaration whose id no other declaration has. *)
  Lemma built_alone b m k s id :
    builder_ok b -> build b = Ok m -> only_declaration b k s id -> (sid_member id = None \/ sb_body s = BReference) ->
    exists sh, model_shape m id = Some sh /\ shape_from b s sh.
  Proof.
    intros OK B (J & O & U) Wm. pose proof (build_spec b OK) as S. rewrite B in S.
    destruct S as (shs & rs & F & -> & _). apply in_split in J as (l1 & l2 & E). rewrite E, map_app in F. cbn [map snd] in F.
    apply Forall2_split in F as (b1 & sh & b2 & -> & F1 & Fsh & F2). exists sh. split; [|exact Fsh].
    assert (Eid : ts_id sh = id) by (apply (own_id_fun b s); [apply Fsh|exact O]).
    assert (Other : forall l bl, (forall e, In e l -> In e (l1 ++ l2)) -> Forall2 (shape_from b) (map snd l) bl ->
                      Forall (fun x => sid_key_eqb (ts_id x) id = false) bl).
    { intros l bl Sub F. remember (map snd l) as ss. revert l Heqss Sub. induction F as [|s' x ss bl Fx F IH]; intros l El Sub; [constructor|].
      destruct l as [|[k' s''] l]; [discriminate|]. injection El as -> ->. constructor.
      - destruct (sid_key_eqb (ts_id x) id) eqn:Q; [|reflexivity]. exfalso.
        assert (J' : In (k', s'') (l1 ++ l2)) by (apply Sub; left; reflexivity).
        apply (entry_unique b k s k' s'' l1 l2 OK E J'). apply (U k' s'' (ts_id x)); [|apply Fx|exact Q].
        rewrite E. apply in_app_iff in J' as [J'|J']; apply in_app_iff; [auto|right; right; exact J'].
      - eapply IH; [reflexivity|]. intros e Je. apply Sub. right. exact Je. }
    apply adds_bare_existing. rewrite adds_app. cbn [adds fold_left]. fold (adds (fst (add_shape (adds (empty_with b) b1) sh)) b2).
    rewrite adds_frame by (apply (Other l2); [intros e Je; apply in_app_iff; auto|exact F2]).
    rewrite <- Eid. apply add_shape_fresh.
    - rewrite Eid, adds_frame by (apply (Other l1); [intros e Je; apply in_app_iff; auto|exact F1]). reflexivity.
    - rewrite Eid. destruct Wm as [Wm|Wm]; [auto|]. right. destruct Fsh as (_ & _ & Bd). rewrite Wm in Bd. cbn in Bd. inversion Bd. reflexivity.
  Qed.
  (** Nothing else is in the model. *)
  Lemma Forall2_In_r {A B} (R : A -> B -> Prop) l bs x : Forall2 R l bs -> In x bs -> exists a, In a l /\ R a x.
  Proof. induction 1 as [|a y l bs Ry F IH]; intros J; [destruct J|]. destruct J as [->|J]; [exists a; cbn; auto|]. destruct (IH J) as (a' & Ja & Ra). exists a'. cbn. auto. Qed.
  Lemma Forall2_In_l {A B} (R : A -> B -> Prop) l bs a : Forall2 R l bs -> In a l -> exists x, In x bs /\ R a x.
  Proof. induction 1 as [|a' y l bs Ry F IH]; intros J; [destruct J|]. destruct J as [->|J]; [exists y; cbn; auto|]. destruct (IH J) as (x & Jx & Rx). exists x. cbn. auto. Qed.
  Lemma built_from b m id sh :
    builder_ok b -> build b = Ok m -> model_shape m id = Some sh ->
    (exists k s sh', In (k, s) (bd_shapes b) /\ shape_from b s sh' /\ sid_key_eqb (ts_id sh') id = true /\ ts_body sh = ts_body sh')
    \/ (exists x, fresh_in b (all_mentions (bd_shapes b)) x /\ sid_key_eqb x id = true /\ sh = bare x).
  Proof.
    intros OK B G. pose proof (build_spec b OK) as S. rewrite B in S. destruct S as (shs & rs & F & -> & Fr & _).
    destruct (model_shape (adds (empty_with b) shs) id) as [e|] eqn:G1.
    - left. rewrite (adds_bare_existing rs _ _ _ G1) in G. injection G as <-.
      apply adds_from_empty in G1 as (s0 & J & Q & Bd); [|reflexivity].
      destruct (Forall2_In_r _ _ _ _ F J) as (s & Js & Fs). apply in_map_iff in Js as ([k s'] & E & Js). cbn in E. subst s'.
      exists k, s, s0. auto.
    - right. revert G G1 Fr. generalize (adds (empty_with b) shs). clear F B OK. induction rs as [|x rs IH]; intros m0 G G1 Fr; cbn in G; [congruence|].
      destruct (sid_key_eqb x id) eqn:Q.
      + exists x. split; [apply Fr; left; reflexivity|]. split; [exact Q|].
        assert (G0 : model_shape (fst (add_shape m0 (bare x))) id = Some (bare x)).
        { rewrite <- (model_shape_cong _ _ _ Q). rewrite <- (model_shape_cong _ _ _ Q) in G1. apply (add_shape_fresh m0 (bare x)); [exact G1|right; reflexivity]. }
        pose proof (adds_bare_existing rs _ _ _ G0) as G0'. unfold adds in G0'. congruence.
      + apply (IH (fst (add_shape m0 (bare x)))); [exact G| |]; [rewrite add_shape_frame; assumption|]. intros y Jy. apply Fr. right. exact Jy.
  Qed.
  (** Every name found nowhere is in the model. *)
  Lemma built_unknown b m t n id :
    builder_ok b -> build b = Ok m -> In (t, n) (all_mentions (bd_shapes b)) -> resolution b t n (Ok (id, true)) -> model_shape m id <> None.
  Proof.
    intros OK B J R. pose proof (build_spec b OK) as S. rewrite B in S. destruct S as (shs & rs & F & -> & _ & Co & _).
    destruct (Co id) as (y & Jy & Q); [exists t, n; auto|]. apply in_split in Jy as (r1 & r2 & ->). rewrite map_app, adds_app. cbn [map].
    change (bare y :: map bare r2) with ([bare y] ++ map bare r2). rewrite adds_app. apply adds_present.
    rewrite <- (model_shape_cong _ _ _ Q). apply (add_shape_present _ (bare y)). right. reflexivity.
  Qed.
  Lemma built_meta b m : builder_ok b -> build b = Ok m -> keys_ok m /\ m_version m = bd_version b /\ m_metadata m = bd_metadata b.
  Proof.
    intros OK B. pose proof (build_spec b OK) as S. rewrite B in S. destruct S as (shs & rs & F & -> & _).
    destruct (adds_metadata (map bare rs) (adds (empty_with b) shs)) as [A1 A2]. destruct (adds_metadata shs (empty_with b)) as [B1 B2].
    split; [|split; [rewrite A2, B2|rewrite A1, B1]; reflexivity].
    apply adds_keys_ok, adds_keys_ok. split; [cbn; tauto|]. split; [exact I|apply OK].
  Qed.
  (** A panic comes from a malformed declaration or from two declarations of one id. *)
  Lemma build_panic b :
    builder_ok b -> build b = Panic ->
    (exists k s, In (k, s) (bd_shapes b) /\ ~ well_built s)
    \/ exists k1 s1 sh1 k2 s2 sh2, In (k1, s1) (bd_shapes b) /\ In (k2, s2) (bd_shapes b) /\ k1 <> k2
          /\ shape_from b s1 sh1 /\ shape_from b s2 sh2 /\ sid_key_eqb (ts_id sh1) (ts_id sh2) = true
          /\ member_mismatch (ts_body sh1) (ts_body sh2).
  Proof.
    intros OK B. pose proof (build_spec b OK) as S. rewrite B in S. destruct S as [N|(l1 & s & l2 & shs & sh & E & F & Fs & P)].
    - left. assert (D : forall s, well_built s \/ ~ well_built s).
      { intros s. unfold well_built. destruct (sb_body s); auto.
        - destruct (str_eqb (mb_name m) (lit "member")) eqn:Q; [apply str_eqb_eq in Q|apply str_eqb_neq in Q]; auto.
        - destruct (str_eqb (mb_name m) (lit "member")) eqn:Q; [apply str_eqb_eq in Q|apply str_eqb_neq in Q]; auto.
        - destruct (svb_version s0); [right; auto|left; discriminate]. }
      clear B. induction (bd_shapes b) as [|[k s] l IH]; [exfalso; apply N; constructor|].
      destruct (D s) as [Ds|Ds]; [|exists k, s; split; [left; reflexivity|assumption]].
      destruct IH as (k' & s' & J & Q); [intros X; apply N; constructor; assumption|]. exists k', s'. split; [right; exact J|exact Q].
    - right. apply add_shape_panic in P as (_ & e & G & M). apply adds_from_empty in G as (s0 & J & Q & Bd); [|reflexivity].
      destruct (Forall2_In_r _ _ _ _ F J) as (s1 & J1 & F1).
      assert (E' : exists e1 k2 e2, bd_shapes b = e1 ++ (k2, s) :: e2 /\ map snd e1 = l1).
      { clear - E. revert l1 E. induction (bd_shapes b) as [|[k x] l IH]; intros l1 E; [destruct l1; discriminate|].
        destruct l1 as [|y l1]; cbn in E.
        - injection E as -> _. exists [], k, l. auto.
        - injection E as -> E. destruct (IH l1 E) as (e1 & k2 & e2 & -> & <-). exists ((k, y) :: e1), k2, e2. auto. }
      destruct E' as (e1 & k2 & e2 & Eb & <-). apply in_map_iff in J1 as ([k1 s1'] & Es & J1). cbn in Es. subst s1'.
      exists k1, s1, s0, k2, s, sh. rewrite Bd in M. split; [rewrite Eb; apply in_app_iff; auto|].
      split; [rewrite Eb; apply in_app_iff; right; left; reflexivity|].
      split; [eapply entry_unique; [exact OK|exact Eb|apply in_app_iff; left; exact J1]|]. auto.
  Qed.

  (** ** Declaration and reference together *)
  Lemma resolved_plain b t n id : imports_plain b -> names_to b t n id -> sid_member id = None.
  Proof. intros P [f R]. inversion R; subst; try reflexivity; [assumption|]. match goal with h : import_of _ _ _ |- _ => apply P, h end. Qed.
  Lemma from_list_distinct {K V} keq (EQ : equivb keq) (l : list (K * V)) : distinct keq (hm_from_list keq l).
  Proof.
    unfold hm_from_list. assert (D : distinct keq (@nil (K * V))) by exact I. revert D. generalize (@nil (K * V)).
    induction l as [|[k v] l IH]; intros acc D; cbn; [assumption|]. apply IH, distinct_insert; assumption.
  Qed.
  Lemma from_list_In {K V} keq (EQ : equivb keq) (l : list (K * V)) k v :
    In (k, v) (hm_from_list keq l) -> (exists k', In (k', v) l) /\ (exists v', In (k, v') l).
  Proof.
    unfold hm_from_list.
    assert (G : forall acc, In (k, v) (fold_left (fun m kv => hm_insert keq (fst kv) (snd kv) m) l acc) ->
                ((exists k', In (k', v) l) \/ (exists k', In (k', v) acc)) /\ ((exists v', In (k, v') l) \/ (exists v', In (k, v') acc))).
    { induction l as [|[k0 v0] l IH]; intros acc J; cbn in *; [split; right; eauto|]. apply IH in J as [A B]. split.
      - destruct A as [[k' A]|[k' A]]; [left; eauto|]. apply hm_insert_In in A as [A|(-> & _)]; [right; eauto|left; eauto|exact EQ].
      - destruct B as [[v' B]|[v' B]]; [left; eauto|].
        clear IH A. induction acc as [|[k1 v1] acc IHa]; cbn in B.
        + destruct B as [B|[]]. injection B as <- _. left; eauto.
        + destruct (keq k1 k0).
          * destruct B as [B|B]; [injection B as <- _; right; eexists; left; reflexivity|right; eexists; right; exact B].
          * destruct B as [B|B]; [right; eexists; left; exact B|]. destruct (IHa B) as [L|[v'' R]]; [left; exact L|right; exists v''; right; exact R]. }
    intros J. apply G in J as [[A|[k' []]] [B|[v' []]]]. auto.
  Qed.
  Lemma shape_from_ok b s sh : imports_plain b -> trait_values_ok s -> shape_from b s sh -> shape_ok sh.
  Proof.
    intros P V (_ & (ps & F & Et) & Bd). split.
    - rewrite Et. split; [apply from_list_distinct, sid_key_equiv|]. apply Forall_forall. intros [i v] J. cbn.
      apply from_list_In in J as [[i' A] [v' B]]; [|apply sid_key_equiv]. split.
      + apply (Forall2_In_r _ _ _ _ F) in B as (t & _ & N & _). eapply resolved_plain; eauto.
      + apply (Forall2_In_r _ _ _ _ F) in A as (t & Jt & _ & E). cbn in E. subst v. unfold trait_values_ok in V.
        rewrite Forall_forall in V. apply (V t Jt).
    - inversion Bd; cbn; try exact I;
        try (match goal with M : members_from _ _ _ |- _ => destruct M as (xs & _ & ->) end; apply from_list_distinct, ident_key_equiv);
        apply from_list_distinct; [apply sid_key_equiv|apply ident_key_equiv].
  Qed.
  (** Adding [x] then (something else and) [y] with the same id. *)
  Lemma adds_two m b1 x b2 y b3 id :
    m_shapes m = [] -> m_metadata m = m_metadata m -> sid_key_eqb (ts_id x) id = true -> sid_key_eqb (ts_id y) id = true ->
    (sid_member (ts_id x) = None \/ ts_body x = KUnresolved) -> (sid_member (ts_id y) = None \/ ts_body y = KUnresolved) ->
    Forall (fun s => sid_key_eqb (ts_id s) id = false) b1 -> Forall (fun s => sid_key_eqb (ts_id s) id = false) b2 ->
    Forall (fun s => sid_key_eqb (ts_id s) id = false) b3 -> keys_ok m ->
    exists m1, keys_ok m1 /\ model_shape m1 (ts_id y) = Some x /\ model_shape (adds m (b1 ++ x :: b2 ++ y :: b3)) id = model_shape (fst (add_shape m1 y)) (ts_id y).
  Proof.
    intros E _ Kx Ky Wx Wy F1 F2 F3 K. exists (adds (fst (add_shape (adds m b1) x)) b2). split; [|split].
    - apply adds_keys_ok, add_shape_keys_ok, adds_keys_ok, K.
    - rewrite (model_shape_cong _ _ _ Ky), adds_frame by exact F2. rewrite <- (model_shape_cong _ _ _ Kx).
      apply add_shape_fresh; [|exact Wx]. rewrite (model_shape_cong _ _ _ Kx), adds_frame by exact F1.
      unfold model_shape. rewrite E. reflexivity.
    - rewrite adds_app. change (x :: b2 ++ y :: b3) with ([x] ++ b2 ++ [y] ++ b3). rewrite !adds_app. rewrite adds_frame by exact F3.
      rewrite (model_shape_cong _ _ _ Ky). reflexivity.
  Qed.
  Lemma add_second m1 x y : 
    keys_ok m1 -> shape_ok x -> shape_ok y -> model_shape m1 (ts_id y) = Some x ->
    (ts_body x = KUnresolved \/ ts_body y = KUnresolved) ->
    (sid_member (ts_id y) = None \/ ts_body y = KUnresolved) ->
    exists sh, model_shape (fst (add_shape m1 y)) (ts_id y) = Some sh /\ ts_id sh = ts_id x /\ ts_body sh = merged_body (ts_body x) (ts_body y)
               /\ (traits_compatible (ts_traits x) (ts_traits y) -> merged_traits (ts_traits x) (ts_traits y) (ts_traits sh)).
  Proof.
    intros K Wx Wy G U Wm.
    assert (OKs : traits_compatible (ts_traits x) (ts_traits y) -> snd (add_shape m1 y) = Ok tt).
    { intros C. apply (add_shape_ok_iff m1 y x); auto. split; [|exact C]. unfold bodies_compatible. tauto. }
    assert (M : traits_compatible (ts_traits x) (ts_traits y) -> forall e, model_shape (fst (add_shape m1 y)) (ts_id y) = Some e -> merged_shape x y e).
    { intros C e Ge. destruct (add_shape_ok m1 y x) as (_ & e' & G' & Mg); auto. congruence. }
    destruct (add_shape_cases m1 y) as [Mm Um|W F|e W F N1 N2 E|e W F N1 N2 E|e ts r W F C A]; try congruence.
    - destruct Wm; congruence.
    - assert (e = x) by congruence. subst e. destruct U; congruence.
    - assert (e = x) by congruence. subst e. destruct U; congruence.
    - assert (e = x) by congruence. subst e. eexists. split; [rewrite model_shape_update, (eqv_refl _ sid_key_equiv), G; reflexivity|].
      split; [reflexivity|]. split; [reflexivity|]. intros Ct.
      specialize (M Ct). rewrite model_shape_update, (eqv_refl _ sid_key_equiv), G in M. specialize (M _ eq_refl). apply M.
  Qed.
  Lemma split_two {A} (x y : A) l : In x l -> In y l -> x <> y ->
    exists l1 l2 l3, l = l1 ++ x :: l2 ++ y :: l3 \/ l = l1 ++ y :: l2 ++ x :: l3.
  Proof.
    intros Jx Jy N. apply in_split in Jx as (a & c & ->). apply in_app_iff in Jy as [Jy|[Jy|Jy]]; [|congruence|].
    - apply in_split in Jy as (a1 & a2 & ->). exists a1, a2, c. right. rewrite <- app_assoc. reflexivity.
    - apply in_split in Jy as (c1 & c2 & ->). exists a, c1, c2. left. reflexivity.
  Qed.
  Lemma traits_compatible_sym a b : traits_ok a -> traits_ok b -> traits_compatible a b -> traits_compatible b a.
  Proof.
    intros [_ Wa] [_ Wb] C t x y Gx Gy.
    assert (V : forall ts v, Forall (fun t => sid_member (fst t) = None /\ match snd t with Some v => value_ok v | None => True end) ts ->
                 trait_named t ts = Some (Some v) -> value_ok v).
    { intros ts v W G. unfold trait_named in G. apply hm_get_Some_In in G as (k & J & _). rewrite Forall_forall in W. apply (W _ J). }
    destruct (C t y x Gy Gx) as (z & Z). inversion Z as [|p q r CV]; subst; [exists None; constructor|].
    inversion CV; subst; [eexists; constructor; constructor|]. eexists. constructor. apply cv_equal; [tauto|].
    apply same_value_sym; eauto.
  Qed.
  Lemma built_pair b m k1 s1 k2 s2 id :
    builder_ok b -> imports_plain b -> trait_values_ok s1 -> trait_values_ok s2 ->
    build b = Ok m -> declared_and_referenced b k1 s1 k2 s2 id ->
    exists sh1 sh2 sh, shape_from b s1 sh1 /\ shape_from b s2 sh2 /\ model_shape m id = Some sh
       /\ ts_body sh = ts_body sh1
       /\ (traits_compatible (ts_traits sh1) (ts_traits sh2) -> traits_combined (ts_traits sh1) (ts_traits sh2) (ts_traits sh)).
  Proof.
    intros OK IP V1 V2 B (J1 & J2 & N & O1 & R2 & (id2 & O2 & Q2) & U). pose proof (build_spec b OK) as S. rewrite B in S.
    destruct S as (shs & rs & F & -> & _).
    assert (Key : forall k s x, In (k, s) (bd_shapes b) -> shape_from b s x -> k <> k1 -> k <> k2 -> sid_key_eqb (ts_id x) id = false).
    { intros k s x J Fx Na Nb. destruct (sid_key_eqb (ts_id x) id) eqn:Q; [|reflexivity].
      destruct (U k s (ts_id x) J (proj1 Fx) Q); contradiction. }
    assert (Plain : forall i, own_id b s1 i -> sid_member i = None \/ sb_body s1 = BReference).
    { intros i Oi. unfold own_id in Oi. destruct (sb_body s1); auto; left; eapply resolved_plain; eauto. }
    assert (Frame : forall l bl, (forall e, In e l -> In e (bd_shapes b) /\ fst e <> k1 /\ fst e <> k2) ->
               Forall2 (shape_from b) (map snd l) bl -> Forall (fun x => sid_key_eqb (ts_id x) id = false) bl).
    { intros l bl Sub F0. remember (map snd l) as ss. revert l Heqss Sub. induction F0 as [|s' x ss bl Fx F0 IH]; intros l El Sub; [constructor|].
      destruct l as [|[k' s''] l]; [discriminate|]. injection El as -> ->. destruct (Sub _ (or_introl eq_refl)) as (Ja & Jb & Jc). constructor.
      - eapply Key; eauto.
      - eapply IH; [reflexivity|]. intros e Je. apply Sub. right. exact Je. }
    assert (Sh : forall s x, (s = s1 \/ s = s2) -> shape_from b s x -> shape_ok x /\ sid_key_eqb (ts_id x) id = true
                       /\ (sid_member (ts_id x) = None \/ ts_body x = KUnresolved) /\ (s = s2 -> ts_body x = KUnresolved)).
    { intros s x E Fx. assert (Wx : shape_ok x) by (destruct E; subst s; [apply (shape_from_ok b s1)|apply (shape_from_ok b s2)]; assumption). split; [exact Wx|].
      assert (Ur : sb_body s = BReference -> ts_body x = KUnresolved).
      { intros R. destruct Fx as (_ & _ & Bd). rewrite R in Bd. cbn in Bd. inversion Bd. reflexivity. }
      destruct E; subst s.
      - rewrite (own_id_fun b s1 _ _ (proj1 Fx) O1). split; [apply sid_key_refl|]. split; [|intros ->; auto].
        destruct (Plain _ O1) as [P|P]; [left|right]; auto.
      - rewrite (own_id_fun b s2 _ _ (proj1 Fx) O2). split; [exact Q2|]. auto. }
    assert (K0 : keys_ok (empty_with b)) by (split; [cbn; tauto|]; split; [exact I|apply OK]).
    assert (Dst : NoDup (map fst (bd_shapes b))).
    { destruct OK as (D & _). induction (bd_shapes b) as [|[k s] l IH]; cbn; [constructor|]. destruct D as [D1 D2]. constructor.
      - intros J. apply in_map_iff in J as ([k' s'] & <- & J). specialize (D1 _ _ J). cbn in D1.
        rewrite (eqv_refl _ name_key_equiv) in D1. discriminate.
      - clear - D2. induction l as [|[k' s'] l IH]; cbn; [constructor|]. destruct D2 as [D1 D2]. constructor; [|auto].
        intros J. apply in_map_iff in J as ([k'' s''] & <- & J). specialize (D1 _ _ J). cbn in D1.
        rewrite (eqv_refl _ name_key_equiv) in D1. discriminate. }
    destruct (split_two (k1, s1) (k2, s2) _ J1 J2) as (l1 & l2 & l3 & E); [congruence|].
    assert (Sub : forall ka sa kb sb, (ka = k1 /\ kb = k2 \/ ka = k2 /\ kb = k1) -> bd_shapes b = l1 ++ (ka, sa) :: l2 ++ (kb, sb) :: l3 ->
               forall e, In e l1 \/ In e l2 \/ In e l3 -> In e (bd_shapes b) /\ fst e <> k1 /\ fst e <> k2).
    { intros ka sa kb sb Ek Eb e Je. rewrite Eb in Dst |- *. split.
      - apply in_app_iff. destruct Je as [Je|[Je|Je]]; [auto| |]; right; right; apply in_app_iff; [auto|right; right; exact Je].
      - rewrite map_app in Dst. cbn in Dst. apply NoDup_remove in Dst as [Dst Na]. rewrite map_app in Dst, Na. cbn in Dst, Na.
        rewrite app_assoc in Dst. apply NoDup_remove in Dst as [Dst Nb].
        assert (Ia : forall x, x = ka \/ x = kb -> fst e <> x).
        { intros x [-> | ->] Ex.
          - apply Na. rewrite <- Ex, !in_app_iff. cbn. assert (In (fst e) (map fst l1) \/ In (fst e) (map fst l2) \/ In (fst e) (map fst l3))
              by (destruct Je as [Je|[Je|Je]]; apply (in_map fst) in Je; auto). tauto.
          - apply Nb. rewrite <- Ex, !in_app_iff. assert (In (fst e) (map fst l1) \/ In (fst e) (map fst l2) \/ In (fst e) (map fst l3))
              by (destruct Je as [Je|[Je|Je]]; apply (in_map fst) in Je; auto). tauto. }
        destruct Ek as [[-> ->]|[-> ->]]; split; auto. }
    destruct E as [E|E].
    - assert (Sb := Sub _ _ _ _ (or_introl (conj eq_refl eq_refl)) E). rewrite E, map_app in F. cbn [map snd] in F.
      apply Forall2_split in F as (b1 & sh1 & b2' & -> & F1 & Fs1 & F2). rewrite map_app in F2. cbn [map snd] in F2.
      apply Forall2_split in F2 as (b2 & sh2 & b3 & -> & F2 & Fs2 & F3).
      destruct (Sh s1 sh1 (or_introl eq_refl) Fs1) as (W1 & Qa & M1 & _). destruct (Sh s2 sh2 (or_intror eq_refl) Fs2) as (W2 & Qb & M2 & U2).
      destruct (adds_two (empty_with b) b1 sh1 b2 sh2 b3 id) as (m1 & K1 & G1 & Em); auto; try (eapply Frame; [|eassumption]; intros e Je; apply Sb; auto).
      destruct (add_second m1 sh1 sh2) as (sh & Gs & _ & Bd & Mg); auto.
      exists sh1, sh2, sh. split; [exact Fs1|]. split; [exact Fs2|]. split; [apply adds_bare_existing; congruence|].
      split; [|intros C; left; auto]. rewrite Bd, (U2 eq_refl). destruct (ts_body sh1); reflexivity.
    - assert (Sb := Sub _ _ _ _ (or_intror (conj eq_refl eq_refl)) E). rewrite E, map_app in F. cbn [map snd] in F.
      apply Forall2_split in F as (b1 & sh2 & b2' & -> & F1 & Fs2 & F2). rewrite map_app in F2. cbn [map snd] in F2.
      apply Forall2_split in F2 as (b2 & sh1 & b3 & -> & F2 & Fs1 & F3).
      destruct (Sh s1 sh1 (or_introl eq_refl) Fs1) as (W1 & Qa & M1 & _). destruct (Sh s2 sh2 (or_intror eq_refl) Fs2) as (W2 & Qb & M2 & U2).
      destruct (adds_two (empty_with b) b1 sh2 b2 sh1 b3 id) as (m1 & K1 & G1 & Em); auto; try (eapply Frame; [|eassumption]; intros e Je; apply Sb; auto).
      destruct (add_second m1 sh2 sh1) as (sh & Gs & _ & Bd & Mg); auto.
      exists sh1, sh2, sh. split; [exact Fs1|]. split; [exact Fs2|]. split; [apply adds_bare_existing; congruence|].
      split; [|intros C; right; apply Mg, traits_compatible_sym; [apply W1|apply W2|exact C]]. rewrite Bd, (U2 eq_refl). reflexivity.
  Qed.

  (** ** What a new reference does to the meaning of names *)
  Definition with_reference (b : builder) (q : shape_id) (ts : list trait_builder) : builder :=
    bd_insert b (SB (Qualified q) ts BReference).
  Lemma imported_insert b q ts q' :
    hm_get name_key_eqb (Qualified q) (bd_shapes b) = None -> imported (with_reference b q ts) q' <-> imported b q' \/ q' = q.
  Proof.
    intros G. unfold imported. cbn. rewrite hm_insert_fresh by exact G. split.
    - intros (s & J & R). apply in_app_iff in J as [J|[J|[]]]; [left; eauto|]. injection J as <- _. auto.
    - intros [(s & J & R)| ->]; eexists; (split; [apply in_app_iff|]); [left; exact J|exact R|right; left; reflexivity|reflexivity].
  Qed.
  Lemma declared_insert b q ts n :
    hm_get name_key_eqb (Qualified q) (bd_shapes b) = None -> declared (with_reference b q ts) n <-> declared b n.
  Proof.
    intros G. unfold declared. cbn. rewrite hm_insert_fresh by exact G. split.
    - intros (n' & s & J & R). apply in_app_iff in J as [J|[J|[]]]; [eauto|discriminate].
    - intros (n' & s & J & R). exists n', s. split; [apply in_app_iff; auto|exact R].
  Qed.
  Lemma not_imported b q : builder_ok b -> hm_get name_key_eqb (Qualified q) (bd_shapes b) = None -> ~ imported b q.
  Proof.
    intros OK G (s & J & _). rewrite hm_get_None_In in G. specialize (G _ _ J).
    rewrite (eqv_refl _ name_key_equiv) in G. discriminate.
  Qed.
  Lemma resolution_reference b q ts t n r :
    builder_ok b -> hm_get name_key_eqb (Qualified q) (bd_shapes b) = None ->
    resolution (with_reference b q ts) t n r <->
    match n with
    | Local x =>
        if ident_eqb (sid_name q) x
        then ((exists q', import_of b x q') /\ r = Err (EAmbiguousShape x)) \/ ((forall q', ~ import_of b x q') /\ r = Ok (q, false))
        else resolution b t n r
    | Qualified _ => resolution b t n r
    end.
  Proof.
    intros OK G.
    assert (IM : forall x q', import_of (with_reference b q ts) x q' <-> import_of b x q' \/ (q' = q /\ same_name (sid_name q) x)).
    { intros x q'. unfold import_of. rewrite imported_insert by exact G. split; [intros [[A| ->] B]; auto|].
      intros [[A B]|[-> B]]; auto. }
    assert (DE := fun x => declared_insert b q ts x G).
    assert (NI := not_imported b q OK G).
    destruct n as [q0|x].
    - split; intros R; inversion R; subst; econstructor; eauto.
    - destruct (ident_eqb (sid_name q) x) eqn:E.
      + apply ident_eqb_spec in E. fold (same_name (sid_name q) x) in E.
        assert (Iq : import_of (with_reference b q ts) x q) by (apply IM; auto).
        split.
        * intros R. inversion R; subst.
          -- right. assert (q = q0) by (match goal with u : forall q', _ -> q' = q0 |- _ => apply u, Iq end). subst q0. split; [|reflexivity].
             intros q' A. assert (q' = q) by (match goal with u : forall q', _ -> q' = q |- _ => apply u, IM; auto end). subst q'. apply NI, A.
          -- left. split; [|reflexivity]. 
             repeat match goal with h : import_of (with_reference _ _ _) _ _ |- _ => apply IM in h as [h|[h _]] end; try (eexists; eassumption). congruence.
          -- exfalso. eapply H1. exact Iq.
          -- exfalso. eapply H1. exact Iq.
          -- exfalso. eapply H1. exact Iq.
        * intros [[(q' & A) ->]|[A ->]].
          -- apply (rn_ambiguous _ _ _ q q'); [exact Iq|apply IM; auto|]. intros ->. apply NI, A.
          -- apply rn_import; [exact Iq|]. intros q' Q. apply IM in Q as [Q|[-> _]]; [|reflexivity]. destruct (A _ Q).
      + assert (Ne : ~ same_name (sid_name q) x). { intros S. apply ident_eqb_spec in S. congruence. }
        assert (IM' : forall q', import_of (with_reference b q ts) x q' <-> import_of b x q') by (intros q'; rewrite IM; tauto).
        split; intros R; inversion R; subst.
        * apply rn_import; [apply IM'; assumption|]. intros q' Q. apply IM' in Q. auto.
        * apply (rn_ambiguous _ _ _ q0 q'); [apply IM'; assumption|apply IM'; assumption|assumption].
        * apply (rn_declared b). { intros q' Q. apply IM' in Q. eapply H1; eauto. } apply DE; assumption.
        * apply (rn_prelude b). { intros q' Q. apply IM' in Q. eapply H1; eauto. } { rewrite <- DE; assumption. } assumption.
        * apply (rn_unknown b). { intros q' Q. apply IM' in Q. eapply H1; eauto. } { rewrite <- DE; assumption. } assumption.
        * apply rn_import; [apply IM'; assumption|]. intros q' Q. apply IM' in Q. auto.
        * apply (rn_ambiguous _ _ _ q0 q'); [apply IM'; assumption|apply IM'; assumption|assumption].
        * apply (rn_declared (with_reference b q ts)). { intros q' Q. apply IM' in Q. eapply H1; eauto. } apply DE; assumption.
        * apply (rn_prelude (with_reference b q ts)). { intros q' Q. apply IM' in Q. eapply H1; eauto. } { rewrite DE; assumption. } assumption.
        * apply (rn_unknown (with_reference b q ts)). { intros q' Q. apply IM' in Q. eapply H1; eauto. } { rewrite DE; assumption. } assumption.
  Qed.
End WithHasher.
