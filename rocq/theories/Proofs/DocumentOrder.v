(** Facts about whole documents, and independence of iteration order. *)
From Verif.Model Require Import Document.
From Verif.Spec Require Import IdentitySpec ModelSpec ReorderSpec ActionsSpec DocumentSpec.
From Verif.Spec Require GraphMLSpec.
From Verif.Proofs Require Import BaseFacts IdentityFacts HashMapFacts ValueFacts ModelFacts ReorderFacts LinesFacts DocumentFacts.
From Verif.Props Require P01_Identity P03_Actions.
From Coq Require Import Lia.

Section Facts.
  Context `{Hasher}.
  Variables (f64_str : Z -> str) (safe_label : str -> str -> str).

  Lemma resolved_spec s : resolved s = true <-> ts_body s <> KUnresolved.
  Proof. unfold resolved. destruct (ts_body s); split; try congruence; reflexivity. Qed.
  Lemma group_In m ns s : In s (group m ns) <-> (exists k, In (k, s) (m_shapes m)) /\ ts_body s <> KUnresolved /\ ns_eqb (sid_ns (ts_id s)) ns = true.
  Proof.
    unfold group. rewrite filter_In, in_map_iff, andb_true_iff, resolved_spec. split.
    - intros [([k s'] & E & I) R]. cbn in E. subst s'. eauto.
    - intros [(k & I) R]. split; [exists (k, s); auto|exact R].
  Qed.
  Lemma order_groups m order ns : Permutation order (namespaces m) -> In ns order -> group m ns <> [].
  Proof.
    intros P I E. apply (Permutation_in _ P) in I. apply (proj1 (P03_Actions.C17_namespaces _ m)) in I as (s & (k & S) & U & <-).
    assert (In s []) as []. rewrite <- E. apply group_In. split; [eauto|]. split; [exact U|apply ns_eqb_spec; reflexivity].
  Qed.
  Lemma order_covers m order k s : Permutation order (namespaces m) -> In (k, s) (m_shapes m) -> ts_body s <> KUnresolved ->
    exists ns, In ns order /\ In s (group m ns).
  Proof.
    intros P I U. destruct (proj1 (proj2 (P03_Actions.C17_namespaces _ m)) s) as (ns & In_ns & E & _); [exists k; exact I|exact U|].
    exists ns. split; [apply (Permutation_in _ (Permutation_sym P)), In_ns|]. apply group_In. split; [eauto|]. split; [exact U|].
    apply ns_eqb_spec. symmetry. apply ident_eqb_spec, E.
  Qed.
  Lemma doc_fine_spec ts : traits_ok ts ->
    (doc_fine ts = true <-> forall t v, In (t, Some v) ts -> sid_key_eqb t documentation_trait = true -> exists text, v = VString text).
  Proof.
    intros [D O]. unfold doc_fine. split.
    - intros F t v I E. rewrite (hm_get_In_key _ sid_key_equiv _ _ _ _ D I E) in F. destruct v; try discriminate. eauto.
    - intros F. destruct (hm_get _ _ ts) as [[v|]|] eqn:E; try reflexivity. apply hm_get_Some_In in E as (t & I & K).
      destruct (F _ _ I K) as (text & ->). reflexivity.
  Qed.
  Lemma documentable_spec m order : maps_ok m -> Permutation order (namespaces m) ->
    (documentable m <-> forallb (fun ns => forallb shape_fine (group m ns)) order = true).
  Proof.
    intros M P.
    assert (F : forall s, Forall traits_ok (trait_sets s) -> (shape_fine s = true <-> forall ts, In ts (trait_sets s) -> doc_fine ts = true)).
    { intros s T. unfold shape_fine, members_fine, trait_sets. rewrite andb_true_iff, forallb_forall. split.
      - intros [F1 F2] ts [<-|I]; [exact F1|]. apply in_map_iff in I as (mb & <- & I). apply F2, I.
      - intros F. split; [apply F; left; reflexivity|]. intros mb I. apply F. right. apply in_map, I. }
    rewrite forallb_forall. split.
    - intros D ns I. apply forallb_forall. intros s Is. destruct (group_stored m ns s M Is) as (_ & _ & U & T).
      apply (F s T). intros ts It. rewrite Forall_forall in T. apply (doc_fine_spec ts (T _ It)). intros t v Iv E.
      apply group_In in Is as ((k & Is) & _). exact (D _ _ _ _ _ Is U It Iv E).
    - intros A k s ts t v I U It Iv E. destruct (order_covers m order k s P I U) as (ns & Ins & Is).
      specialize (A _ Ins). rewrite forallb_forall in A. specialize (A _ Is). destruct (group_stored m ns s M Is) as (_ & _ & _ & T).
      apply (F s T) with (ts := ts) in A; [|exact It]. rewrite Forall_forall in T.
      exact (proj1 (doc_fine_spec ts (T _ It)) A t v Iv E).
  Qed.
  Lemma no_shapes_order m order : Permutation order (namespaces m) ->
    (if has_shapes m then describe_namespaces f64_str safe_label m order else Ok []) = describe_namespaces f64_str safe_label m order.
  Proof.
    intros P. unfold has_shapes. destruct (m_shapes m) eqn:E; [|reflexivity].
    assert (N : namespaces m = []) by (unfold namespaces, shape_names, shapes, hm_values; rewrite E; reflexivity).
    rewrite N in P. apply Permutation_sym, Permutation_nil in P. subst. reflexivity.
  Qed.
  Lemma document_says m order : maps_ok m -> Permutation order (namespaces m) ->
    if forallb (fun ns => forallb shape_fine (group m ns)) order then
      exists d chapters, describe_model f64_str safe_label order m = Ok d /\ d_title d = lit "Smithy Model"
        /\ by_heading Section1 (d_blocks d)
           = ([Paragraph [Plain (lit "Smithy Version: " ++ version_display (m_version m))]], metadata_chapter f64_str m ++ chapters)
        /\ Forall2 (chapter_about f64_str safe_label m) order chapters
    else describe_model f64_str safe_label order m = Panic.
  Proof.
    intros M P. unfold describe_model. rewrite (no_shapes_order _ _ P).
    pose proof (namespaces_say f64_str safe_label m order M (fun ns I => order_groups m order ns P I)) as N.
    destruct (forallb _ order); [|rewrite N; reflexivity]. destruct N as (bs & chapters & -> & B & F). cbn [rbind].
    eexists. exists chapters. split; [reflexivity|]. split; [reflexivity|]. split; [|exact F]. cbn [d_blocks app].
    unfold metadata_chapter, describe_model_metadata. destruct (m_metadata m) as [|e l].
    - cbn [app by_heading]. rewrite B. reflexivity.
    - cbn [app by_heading same_level]. rewrite B. reflexivity.
  Qed.

  (** ** Each shape once *)
  Lemma filter_or {A} (p q : A -> bool) l : (forall x, In x l -> p x = true -> q x = false) ->
    Permutation (filter p l ++ filter q l) (filter (fun x => p x || q x) l).
  Proof.
    induction l as [|x l IH]; intros D; [reflexivity|]. cbn [filter].
    assert (IH' := IH (fun y I => D y (or_intror I))). pose proof (D x (or_introl eq_refl)) as Dx.
    destruct (p x) eqn:Px; cbn [orb app].
    - rewrite (Dx eq_refl). constructor. exact IH'.
    - destruct (q x); [|exact IH']. rewrite <- Permutation_middle. constructor. exact IH'.
  Qed.
  Lemma flat_map_groups {A K} (p : K -> A -> bool) (l : list A) (order : list K) :
    NoDup order -> (forall a b x, In a order -> In b order -> In x l -> p a x = true -> p b x = true -> a = b) ->
    Permutation (flat_map (fun k => filter (p k) l) order) (filter (fun x => existsb (fun k => p k x) order) l).
  Proof.
    induction order as [|k order IH]; intros N U; cbn [flat_map existsb].
    - clear. induction l; [reflexivity|exact IHl].
    - inversion N as [|? ? N1 N2]; subst.
      rewrite IH; [|exact N2|intros a b x Ia Ib; apply U; right; assumption]. apply filter_or. intros x I Pk.
      destruct (existsb (fun k0 => p k0 x) order) eqn:E; [|reflexivity]. apply existsb_exists in E as (k' & I' & P').
      exfalso. apply N1. rewrite (U k k' x (or_introl eq_refl) (or_intror I') I Pk P'). exact I'.
  Qed.
  Lemma groups_cover m order : one_spelling m -> Permutation order (namespaces m) ->
    Permutation (flat_map (group m) order) (filter resolved (map snd (m_shapes m))).
  Proof.
    intros O P.
    assert (E : filter resolved (map snd (m_shapes m)) =
                filter (fun s => existsb (fun ns => resolved s && ns_eqb (sid_ns (ts_id s)) ns) order) (map snd (m_shapes m))).
    { apply filter_ext_in. intros s I. apply in_map_iff in I as ([k s'] & E & I). cbn in E. subst s'.
      destruct (resolved s) eqn:R; cbn [andb].
      - destruct (order_covers m order k s P I (proj1 (resolved_spec s) R)) as (ns & Ins & Is). symmetry. apply existsb_exists.
        exists ns. split; [exact Ins|]. apply group_In in Is. tauto.
      - symmetry. clear. induction order; [reflexivity|exact IHorder]. }
    rewrite E. apply flat_map_groups.
    - apply (Permutation_NoDup (Permutation_sym P)), (P03_Actions.C17_namespaces _ m).
    - intros a b s Ia Ib I Pa Pb.
      assert (X : forall ns, In ns order -> ns_eqb (sid_ns (ts_id s)) ns = true -> resolved s = true -> sid_ns (ts_id s) = ns).
      { intros ns Ins Q R. apply (Permutation_in _ P) in Ins.
        apply (proj1 (P03_Actions.C17_namespaces _ m)) in Ins as (s' & (k' & S) & U & <-).
        apply in_map_iff in I as ([k s0] & E0 & I). cbn in E0. subst s0.
        exact (O _ _ _ _ I S (proj1 (resolved_spec s) R) U Q). }
      apply andb_true_iff in Pa as [R Qa]. apply andb_true_iff in Pb as [_ Qb]. rewrite <- (X a Ia Qa R). exact (X b Ib Qb R).
  Qed.

  (** ** Other iteration orders *)
  Lemma Forall2_perm_r {A B} (R : A -> B -> Prop) a b b' : Forall2 R a b -> Permutation b b' -> exists a', Permutation a a' /\ Forall2 R a' b'.
  Proof.
    intros F P. revert a F. induction P as [|y b b' P IH|y z b|b1 b2 b3 P1 IH1 P2 IH2]; intros a F.
    - inversion F; subst. exists []. split; [reflexivity|constructor].
    - inversion F as [|x ? a0 ? Rx F']; subst. destruct (IH _ F') as (a' & Pa & Fa). exists (x :: a'). split; [constructor; exact Pa|constructor; assumption].
    - inversion F as [|x ? a0 ? Rx F1]; subst. inversion F1 as [|w ? a1 ? Rw F2]; subst. exists (w :: x :: a1).
      split; [apply perm_swap|repeat constructor; assumption].
    - destruct (IH1 _ F) as (a1 & Pa1 & F1). destruct (IH2 _ F1) as (a2 & Pa2 & F2). exists a2. split; [transitivity a1; assumption|exact F2].
  Qed.
  Lemma strict_unique {A} (lt : A -> A -> Prop) : (forall a b, lt a b -> lt b a -> False) ->
    forall l l', StronglySorted lt l -> StronglySorted lt l' -> Permutation l l' -> l = l'.
  Proof.
    intros As. induction l as [|x l IH]; intros l' S S' P.
    - apply Permutation_nil in P. auto.
    - destruct l' as [|y l']; [apply Permutation_sym, Permutation_nil in P; discriminate|].
      inversion S as [|? ? S1 F1]; subst. inversion S' as [|? ? S2 F2]; subst.
      assert (x = y).
      { assert (Ix : In x (y :: l')) by (eapply Permutation_in; [exact P|left; reflexivity]).
        assert (Iy : In y (x :: l)) by (eapply Permutation_in; [apply Permutation_sym, P|left; reflexivity]).
        destruct Ix as [->|Ix]; [reflexivity|]. destruct Iy as [->|Iy]; [reflexivity|].
        rewrite Forall_forall in F1, F2. exfalso. exact (As x y (F1 _ Iy) (F2 _ Ix)). }
      subst y. f_equal. apply IH; auto. eapply Permutation_cons_inv; eauto.
  Qed.
  Lemma related_sorted {A} (lt : A -> A -> Prop) (R : A -> A -> Prop) a b a' b' sa sb :
    (forall x y, lt x y -> lt y x -> False) ->
    (forall x x' y y', R x x' -> R y y' -> lt x' y' -> lt x y) ->
    Permutation a a' -> Forall2 R a' b -> b' = b -> Permutation a sa -> Permutation b' sb ->
    StronglySorted lt sa -> StronglySorted lt sb -> Forall2 R sa sb.
  Proof.
    intros As Co P F -> Pa Pb Sa Sb. destruct (Forall2_perm_r R a' b sb F Pb) as (sa' & P' & F').
    replace sa with sa'; [exact F'|]. apply (strict_unique lt As).
    - clear - Co F' Sb. induction F' as [|x x' l l' Rx F' IH]; [constructor|]. inversion Sb as [|? ? S1 F1]; subst. constructor; [auto|].
      clear - Co F' F1 Rx. induction F' as [|y y' l l' Ry F' IH]; [constructor|]. inversion F1 as [|? ? L1 L2]; subst. constructor; [|auto].
      exact (Co _ _ _ _ Rx Ry L1).
    - exact Sa.
    - rewrite <- P', <- P. exact Pa.
  Qed.
  Lemma text_before_asym a b : text_before a b -> text_before b a -> False.
  Proof. rewrite <- !P01_Identity.str_cmp_before. intros A B. rewrite str_cmp_antisym, A in B. discriminate. Qed.
  Lemma id_before_asym a b : id_before a b -> id_before b a -> False.
  Proof.
    rewrite <- !(proj2 P01_Identity.C06_dictionary_order). intros A B. rewrite sid_cmp_antisym, A in B. discriminate.
  Qed.
  Definition entry_rel {K V} (R : V -> V -> Prop) (x y : K * V) : Prop := fst x = fst y /\ R (snd x) (snd y).
  Lemma entries_related {K V} (lt : K -> K -> Prop) (R : V -> V -> Prop) (a b sa sb : list (K * V)) :
    (forall x y, lt x y -> lt y x -> False) -> reordered R a b -> Permutation a sa -> Permutation b sb ->
    StronglySorted (fun x y => lt (fst x) (fst y)) sa -> StronglySorted (fun x y => lt (fst x) (fst y)) sb ->
    Forall2 (entry_rel R) sa sb.
  Proof.
    intros As (a' & P & F) Pa Pb Sa Sb.
    apply (related_sorted (fun x y : K * V => lt (fst x) (fst y)) (entry_rel R) a b a' b sa sb); auto.
    - intros x y. apply As.
    - intros x x' y y' [E _] [E' _]. rewrite E, E'. auto.
  Qed.
  Lemma reorder_array l v : reorder_value (VArray l) v -> exists r, v = VArray r /\ Forall2 reorder_value l r.
  Proof.
    intros R. inversion R; subst; eauto. exists l. split; [reflexivity|]. clear. induction l; constructor; auto using rv_same.
  Qed.
  Lemma reorder_object l v : reorder_value (VObject l) v -> exists r, v = VObject r /\ reordered reorder_value l r.
  Proof.
    intros R. inversion R; subst.
    - eexists. split; [reflexivity|]. eexists. eauto.
    - exists l. split; [reflexivity|]. exists l. split; [reflexivity|]. clear. induction l; constructor; auto using rv_same.
  Qed.
  Lemma reordered_nil {K V} (R : V -> V -> Prop) (r : list (K * V)) : reordered R [] r -> r = [].
  Proof. intros (a & P & F). apply Permutation_nil in P. subst. inversion F. reflexivity. Qed.
  Lemma reordered_not_nil {K V} (R : V -> V -> Prop) (l r : list (K * V)) : reordered R l r -> l <> [] -> r <> [].
  Proof. intros (a & P & F) N ->. inversion F; subst. apply Permutation_sym, Permutation_nil in P. contradiction. Qed.
End Facts.

Scheme value_rows_mind := Minimality for value_rows Sort Prop
  with array_rows_mind := Minimality for array_rows Sort Prop
  with object_rows_mind := Minimality for object_rows Sort Prop.
Section Rows.
  Context `{Hasher}.
  Variables (f64_str : Z -> str) (safe_label : str -> str -> str).
  Lemma value_rows_reorder name p v r : value_rows f64_str name p v r ->
    forall v' r', reorder_value v v' -> value_rows f64_str name p v' r' -> r = r'.
  Proof.
    apply (value_rows_mind f64_str name
      (fun p v r => forall v' r', reorder_value v v' -> value_rows f64_str name p v' r' -> r = r')
      (fun i l r => forall l' r', Forall2 reorder_value l l' -> array_rows f64_str name i l' r' -> r = r')
      (fun l r => forall l' r', Forall2 (entry_rel reorder_value) l l' -> object_rows f64_str name l' r' -> r = r')); clear.
    - intros p v t S v' r' R V. inversion R; subst; try discriminate. inversion V; subst; try discriminate. congruence.
    - intros p v' r' R V. inversion R; subst. inversion V; subst; [discriminate|reflexivity].
    - intros p v' r' R V. apply reorder_array in R as (l & -> & F). inversion F; subst. inversion V; subst; [discriminate|reflexivity|contradiction].
    - intros p v' r' R V. apply reorder_object in R as (l & -> & F). apply reordered_nil in F. subst.
      inversion V; subst; [discriminate|reflexivity|contradiction].
    - intros p vs rows N A IH v' r' R V. apply reorder_array in R as (l & -> & F).
      inversion V; subst; [discriminate|inversion F; subst; contradiction|]. eapply IH; eassumption.
    - intros p vs sorted rows N P S O IH v' r' R V. apply reorder_object in R as (l & -> & F).
      pose proof (reordered_not_nil _ _ _ F N) as N'.
      inversion V as [| | | | |? ? sorted' ? ? P' S' O']; subst; [discriminate|contradiction|].
      apply (IH sorted'); [|exact O'].
      exact (entries_related text_before reorder_value vs l sorted sorted' text_before_asym F P P' S S').
    - intros i l' r' F A. inversion F; subst. inversion A; subst. reflexivity.
    - intros i v vs r rows V IHv A IHa l' r' F A'. inversion F; subst. inversion A'; subst. f_equal; [eapply IHv; eassumption|eapply IHa; eassumption].
    - intros l' r' F A. inversion F; subst. inversion A; subst. reflexivity.
    - intros k v vs r rows V IHv A IHa l' r' F A'. inversion F as [|? [k' v'] ? ? [E Rv] F']; subst. cbn in E, Rv. subst k'.
      inversion A'; subst. f_equal; [eapply IHv; eassumption|eapply IHa; eassumption].
  Qed.
  Lemma each_rows_reorder ts r : each_rows f64_str ts r ->
    forall ts' r', Forall2 (entry_rel reorder_trait_value) ts ts' -> each_rows f64_str ts' r' -> r = r'.
  Proof.
    intros E. induction E as [|id v ts rows L E IH|id ts rows L E IH|id v r ts rows L V E IH]; intros ts' r' F E'; inversion F as [|? [id' v'] ? ? [I Rv] F']; subst.
    - inversion E'. reflexivity.
    - cbn in I. subst id'. inversion E'; subst; try congruence. eapply IH; eassumption.
    - cbn in I, Rv. subst id'. destruct v'; [contradiction|]. inversion E'; subst; try congruence. f_equal. eapply IH; eassumption.
    - cbn in I, Rv. subst id'. destruct v'; [|contradiction]. inversion E'; subst; try congruence.
      f_equal; [eapply value_rows_reorder; eassumption|eapply IH; eassumption].
  Qed.
  Lemma traits_rows_reorder ts ts' r r' : reorder_traits ts ts' -> traits_rows f64_str ts r -> traits_rows f64_str ts' r' -> r = r'.
  Proof.
    intros R (sa & Pa & Sa & Ea) (sb & Pb & Sb & Eb). eapply each_rows_reorder; [exact Ea| |exact Eb].
    exact (entries_related id_before reorder_trait_value ts ts' sa sb id_before_asym R Pa Pb Sa Sb).
  Qed.
  Lemma trait_tables_reorder l t : trait_tables f64_str l t ->
    forall l' t', Forall2 reorder_traits l l' -> trait_tables f64_str l' t' -> t = t'.
  Proof.
    intros T. induction T as [|ts l t R T IH|ts l rows t R N T IH]; intros l' t' F T'; inversion F; subst; inversion T'; subst.
    - reflexivity.
    - eapply IH; eassumption.
    - exfalso. pose proof (traits_rows_reorder _ _ _ _ H2 R H3). congruence.
    - exfalso. pose proof (traits_rows_reorder _ _ _ _ H2 R H3). congruence.
    - f_equal; [eapply traits_rows_reorder; eassumption|eapply IH; eassumption].
  Qed.
  Lemma trait_tables_perm l l' t : Permutation l l' -> trait_tables f64_str l t -> exists t', Permutation t t' /\ trait_tables f64_str l' t'.
  Proof.
    intros P. revert t. induction P as [|x l l' P IH|x y l|l1 l2 l3 P1 IH1 P2 IH2]; intros t T.
    - exists t. split; [reflexivity|exact T].
    - inversion T; subst.
      + destruct (IH _ H4) as (t' & Pt & T'). exists t'. split; [exact Pt|apply tt_none; assumption].
      + destruct (IH _ H5) as (t' & Pt & T'). eexists. split; [constructor; exact Pt|apply tt_some; assumption].
    - inversion T; subst; match goal with X : trait_tables _ (_ :: _) _ |- _ => inversion X; subst end.
      all: eexists; (split; [|repeat (first [apply tt_some; [eassumption|assumption|]|apply tt_none; [eassumption|]]); eassumption]).
      all: first [reflexivity|apply perm_swap].
    - destruct (IH1 _ T) as (t1 & Pt1 & T1). destruct (IH2 _ T1) as (t2 & Pt2 & T2). exists t2. split; [transitivity t1; assumption|exact T2].
  Qed.
End Rows.

Section Reorder.
  Context `{Hasher}.
  Variables (f64_str : Z -> str) (safe_label : str -> str -> str).

  Lemma trait_sets_reorder a b : reorder_shape a b ->
    exists mid, Permutation (trait_sets a) mid /\ Forall2 reorder_traits mid (trait_sets b).
  Proof.
    intros (_ & T & B). unfold trait_sets.
    assert (X : exists mid, Permutation (map ms_traits (members_of (ts_body a))) mid
                            /\ Forall2 reorder_traits mid (map ms_traits (members_of (ts_body b)))).
    { assert (Same : forall x, exists mid, Permutation x mid /\ Forall2 reorder_traits mid x).
      { intros x. exists x. split; [reflexivity|]. induction x; constructor; auto. apply reorder_traits_refl. }
      assert (Mem : forall ms ms', reordered reorder_member ms ms' ->
        exists mid, Permutation (map ms_traits (map snd ms)) mid /\ Forall2 reorder_traits mid (map ms_traits (map (@snd str _) ms'))).
      { intros ms ms' (x & P & F). exists (map ms_traits (map snd x)). split; [apply Permutation_map, Permutation_map, P|].
        clear P. induction F as [|e e' x ms' [_ (_ & _ & R)] F IH]; cbn; constructor; auto. }
      destruct B as [m m' (_ & _ & R)|m m' (_ & _ & R)|k v k' v' (_ & _ & R1) (_ & _ & R2)|ms ms' R|ms ms' R|sv sv' _|r r' _|body];
        cbn [members_of map]; try (apply Same; fail); try (apply Mem; assumption).
      - eexists. split; [reflexivity|repeat constructor; assumption].
      - eexists. split; [reflexivity|repeat constructor; assumption].
      - eexists. split; [reflexivity|repeat constructor; assumption]. }
    destruct X as (mid & P & F). exists (ts_traits a :: mid). split; [constructor; exact P|constructor; assumption].
  Qed.
  Lemma doc_texts_reorder a b : traits_ok a -> reorder_traits a b -> doc_texts a = doc_texts b.
  Proof.
    intros [D _] R. pose proof (reordered_get _ sid_key_equiv _ _ _ documentation_trait D R) as G. unfold doc_texts.
    destruct (hm_get _ _ a) as [[v|]|], (hm_get _ _ b) as [[w|]|]; cbn in G; try contradiction; try reflexivity.
    inversion G; reflexivity.
  Qed.
  Lemma doc_links_reorder a b : traits_ok a -> reorder_traits a b ->
    Permutation (map snd (concat (doc_links f64_str a))) (map snd (concat (doc_links f64_str b))).
  Proof.
    intros [D _] R. pose proof (reordered_get _ sid_key_equiv _ _ _ external_documentation_trait D R) as G. unfold doc_links.
    destruct (hm_get _ _ a) as [[v|]|], (hm_get _ _ b) as [[w|]|]; cbn in G; try contradiction; try reflexivity.
    destruct v as [l|l|n|bo|s|]; try (inversion G; subst; reflexivity).
    apply reorder_object in G as (r & -> & R').
    assert (K : Permutation (map fst l) (map fst r)).
    { destruct R' as (x & P & F). rewrite P. clear P. induction F as [|e e' x r [E _] F IH]; [reflexivity|]. cbn. rewrite E. constructor. exact IH. }
    assert (X : forall l : list (str * value), map snd (concat match l with e :: vs => [map (fun e => (value_display f64_str (snd e), fst e)) (e :: vs)] | [] => [] end) = map fst l).
    { intros [|e vs]; [reflexivity|]. cbn [concat]. rewrite app_nil_r, map_map. reflexivity. }
    rewrite !X. exact K.
  Qed.
  Lemma flat_map_perm_id {A B} (f : A -> list B) l l' : Permutation l l' -> Permutation (flat_map f l) (flat_map f l').
  Proof.
    induction 1; cbn; [reflexivity|apply Permutation_app_head; assumption|rewrite !app_assoc; apply Permutation_app_tail, Permutation_app_comm|etransitivity; eassumption].
  Qed.
  Lemma mentions_reorder a b : reorder_shape a b -> Permutation (expected_mentions safe_label a) (expected_mentions safe_label b).
  Proof.
    intros (I & _ & B). unfold expected_mentions. rewrite <- I.
    assert (Mem : forall ms ms' : members, reordered reorder_member ms ms' ->
        Permutation (flat_map (fun e => named_refer safe_label (ts_id a) (ms_id (snd e)) (ms_target (snd e))) ms)
                    (flat_map (fun e => named_refer safe_label (ts_id a) (ms_id (snd e)) (ms_target (snd e))) ms')).
    { intros ms ms' (x & P & F). rewrite (flat_map_perm_id _ _ _ P). clear P.
      induction F as [|e e' x ms' [_ (E1 & E2 & _)] F IH]; [reflexivity|]. cbn [flat_map]. rewrite E1, E2. apply Permutation_app_head, IH. }
    destruct B as [m m' (_ & E & R)|m m' (_ & E & R)|k v k' v' (_ & E1 & R1) (_ & E2 & R2)|ms ms' R|ms ms' R|sv sv' (E1 & E2 & E3 & E4)|r r' R|body].
    - rewrite E. reflexivity.
    - rewrite E. reflexivity.
    - rewrite E1, E2. reflexivity.
    - apply Mem, R.
    - apply Mem, R.
    - rewrite E2, E3. apply Permutation_app_head, Permutation_app_head, flat_map_perm_id, E4.
    - destruct R as (_ & E1 & E2 & E3 & E4 & E5 & E6 & E7 & E8 & E9). rewrite E1, E2, E3, E4, E5, E6, E7, E8, E9. reflexivity.
    - reflexivity.
  Qed.
  Lemma headed_perm t l l' : Permutation l l' -> Permutation (headed t l) (headed t l').
  Proof.
    intros P. destruct l as [|x l]; [apply Permutation_nil in P; subst; reflexivity|].
    destruct l' as [|y l']; [apply Permutation_sym, Permutation_nil in P; discriminate|]. cbn [headed]. constructor. exact P.
  Qed.
  Lemma lines_reorder a b : reorder_shape a b -> Permutation (expected_lines safe_label a) (expected_lines safe_label b).
  Proof.
    intros (I & _ & B). unfold expected_lines. rewrite <- I.
    assert (Mem : forall ms ms' : members, reordered reorder_member ms ms' ->
        Permutation (headed "Members" (map (fun e => Line [Code (ms_id (snd e)); Plain (lit ": "); refer safe_label (ts_id a) (ms_target (snd e))]) ms))
                    (headed "Members" (map (fun e => Line [Code (ms_id (snd e)); Plain (lit ": "); refer safe_label (ts_id a) (ms_target (snd e))]) ms'))).
    { intros ms ms' (x & P & F). apply headed_perm. rewrite (Permutation_map _ P). clear P.
      induction F as [|e e' x ms' [_ (E1 & E2 & _)] F IH]; [reflexivity|]. cbn [map]. rewrite E1, E2. constructor. exact IH. }
    destruct B as [m m' (_ & E & R)|m m' (_ & E & R)|k v k' v' (_ & E1 & R1) (_ & E2 & R2)|ms ms' R|ms ms' R|sv sv' (E1 & E2 & E3 & E4)|r r' R|body].
    - rewrite E. reflexivity.
    - rewrite E. reflexivity.
    - rewrite E1, E2. reflexivity.
    - apply Mem, R.
    - apply Mem, R.
    - rewrite E1, E2, E3. do 3 apply Permutation_app_head. apply headed_perm, Permutation_map, E4.
    - destruct R as (_ & E1 & E2 & E3 & E4 & E5 & E6 & E7 & E8 & E9). rewrite E1, E2, E3, E4, E5, E6, E7, E8, E9. reflexivity.
    - reflexivity.
  Qed.
  Lemma type_name_reorder a b : reorder_body a b -> GraphMLSpec.type_name a = GraphMLSpec.type_name b.
  Proof. intros R. inversion R; reflexivity. Qed.
  Lemma sections_reorder a b ea eb : reorder_shape a b -> Forall traits_ok (trait_sets a) ->
    section_about f64_str safe_label a ea -> section_about f64_str safe_label b eb -> same_section ea eb.
  Proof.
    intros R O (Ta & La & Pa & Sa & Ba & Ma & Na & _) (Tb & Lb & Pb & Sb & Bb & Mb & Nb & _). pose proof R as (I & _ & Bo).
    destruct (trait_sets_reorder a b R) as (mid & P & F).
    assert (Om : Forall traits_ok mid) by (eapply Permutation_Forall; eassumption).
    split; [rewrite Ta, Tb, I, (type_name_reorder _ _ Bo); reflexivity|]. split; [rewrite La, Lb, I; reflexivity|].
    split; [|split; [|split; [|split]]].
    - rewrite Pa, Pb, (flat_map_perm_id _ _ _ P). clear - F Om. induction F as [|x y l l' Rx F IH]; [reflexivity|].
      inversion Om; subst. cbn. rewrite (doc_texts_reorder x y); [|assumption..]. apply Permutation_app_head, IH. assumption.
    - rewrite Sa, Sb. transitivity (map snd (concat (flat_map (doc_links f64_str) mid))).
      + apply Permutation_map. assert (C : forall l : list (list (str * str)), concat l = flat_map (fun x => x) l) by (intros l; rewrite flat_map_concat_map, map_id; reflexivity).
        rewrite !C. apply flat_map_perm_id, flat_map_perm_id, P.
      + clear - F Om. induction F as [|x y l l' Rx F IH]; [reflexivity|]. inversion Om; subst. cbn [flat_map].
        rewrite !concat_app, !map_app. apply Permutation_app; [apply doc_links_reorder; assumption|apply IH; assumption].
    - destruct (trait_tables_perm f64_str _ _ _ P Ba) as (t & Pt & Tt). rewrite Pt.
      rewrite (trait_tables_reorder f64_str _ _ Tt _ _ F Bb). reflexivity.
    - rewrite Ma, Mb. apply mentions_reorder, R.
    - rewrite Na, Nb. apply lines_reorder, R.
  Qed.
  Lemma resolved_reorder a b : reorder_shape a b -> resolved a = resolved b.
  Proof. intros (_ & _ & B). unfold resolved. inversion B; reflexivity. Qed.
  Lemma group_reorder m1 m2 ns : reorder_model m1 m2 -> exists mid, Permutation (group m1 ns) mid /\ Forall2 reorder_shape mid (group m2 ns).
  Proof.
    intros (_ & _ & x & P & F). unfold group. exists (filter (fun s => resolved s && ns_eqb (sid_ns (ts_id s)) ns) (map snd x)).
    assert (Pf : forall (f : shape -> bool) l l', Permutation l l' -> Permutation (filter f l) (filter f l')).
    { intros f l l' Q. induction Q; cbn; [reflexivity|destruct (f x0); [constructor|]; assumption|destruct (f x0), (f y); reflexivity || apply perm_swap|etransitivity; eassumption]. }
    split; [apply Pf, Permutation_map, P|]. clear P. induction F as [|e e' x l [_ R] F IH]; cbn [map filter]; [constructor|].
    rewrite (resolved_reorder _ _ R), (proj1 R). destruct (_ && _); [constructor; assumption|assumption].
  Qed.
  Definition ids_valid (m : model) : Prop := Forall (fun e => valid_id (ts_id (snd e))) (m_shapes m).
  Lemma strict_shapes m ns shapes : maps_ok m -> ids_valid m -> Permutation shapes (group m ns) -> StronglySorted not_after shapes ->
    StronglySorted (fun a b => text_before (id_text (ts_id a)) (id_text (ts_id b))) shapes.
  Proof.
    intros M V P S.
    assert (N : NoDup (map ts_id (group m ns))).
    { destruct M as [[(K & D & _) _] _]. apply (distinct_nodup sid_key_eqb) in D; [|apply sid_key_equiv].
      assert (E : map fst (m_shapes m) = map ts_id (map snd (m_shapes m))).
      { rewrite map_map. apply map_ext_in. intros [k s] I. apply (K _ _ I). }
      rewrite E in D. unfold group. generalize (map snd (m_shapes m)) D. clear.
      induction l as [|s l IH]; cbn; intros D; [constructor|]. inversion D as [|? ? D1 D2]; subst.
      destruct (_ && _); cbn; [|auto]. constructor; [|auto]. intros I. apply D1. apply in_map_iff in I as (x & E & I).
      apply filter_In in I as [I _]. rewrite <- E. apply in_map, I. }
    apply (nodup_perm_map ts_id _ _ (Permutation_sym P)) in N.
    assert (Vs : Forall (fun s => valid_id (ts_id s)) shapes).
    { apply Forall_forall. intros s I. apply (Permutation_in _ P), group_In in I as ((k & I) & _). unfold ids_valid in V.
      rewrite Forall_forall in V. exact (V _ I). }
    clear P. induction S as [|s l S IH F]; [constructor|]. cbn in N. inversion N as [|? ? N1 N2]; subst. inversion Vs as [|? ? V1 V2]; subst.
    constructor; [auto|]. rewrite Forall_forall in *. intros s' I. specialize (F _ I). unfold not_after in F.
    rewrite <- P01_Identity.str_cmp_before in F |- *. rewrite str_cmp_antisym in F.
    destruct (str_cmp (id_text (ts_id s)) (id_text (ts_id s'))) eqn:E; [|reflexivity|exfalso; apply F; reflexivity].
    exfalso. apply str_cmp_eq, id_text_inj in E; [|assumption|exact (V2 _ I)]. apply N1. rewrite E. apply in_map, I.
  Qed.
  Lemma chapters_reorder m1 m2 ns c1 c2 : maps_ok m1 -> maps_ok m2 -> ids_valid m1 -> ids_valid m2 -> reorder_model m1 m2 ->
    chapter_about f64_str safe_label m1 ns c1 -> chapter_about f64_str safe_label m2 ns c2 -> same_chapter c1 c2.
  Proof.
    intros M1 M2 V1 V2 R (T1 & _ & s1 & e1 & P1 & S1 & B1 & F1) (T2 & _ & s2 & e2 & P2 & S2 & B2 & F2).
    split; [rewrite T1, T2; reflexivity|]. unfold sections. rewrite B1, B2. cbn [snd].
    destruct (group_reorder m1 m2 ns R) as (mid & Pm & Fm).
    assert (Fs : Forall2 reorder_shape s1 s2).
    { apply (related_sorted (fun a b => text_before (id_text (ts_id a)) (id_text (ts_id b))) reorder_shape (group m1 ns) (group m2 ns) mid (group m2 ns));
        auto using Permutation_sym.
      - intros x y. apply text_before_asym.
      - intros x x' y y' (E & _) (E' & _). rewrite E, E'. auto.
      - apply (strict_shapes m1 ns); assumption.
      - apply (strict_shapes m2 ns); assumption. }
    assert (O : Forall (fun s => Forall traits_ok (trait_sets s)) s1).
    { apply Forall_forall. intros s I. apply (Permutation_in _ P1) in I. apply (group_stored m1 ns s M1 I). }
    clear - Fs F1 F2 O. revert e1 e2 F1 F2. induction Fs as [|a b l l' Rab Fs IH]; intros e1 e2 F1 F2; inversion F1; inversion F2; inversion O; subst; constructor; auto.
    eapply sections_reorder; eassumption.
  Qed.
  Lemma reorder_stored m1 m2 k s : reorder_model m1 m2 -> In (k, s) (m_shapes m1) ->
    exists s', In (k, s') (m_shapes m2) /\ reorder_shape s s'.
  Proof.
    intros (_ & _ & x & P & F) I. apply (Permutation_in _ P) in I. clear P. induction F as [|e e' x l [E R] F IH]; [destruct I|].
    destruct I as [->|I]; [|destruct (IH I) as (s' & I' & R'); exists s'; split; [right; exact I'|exact R']].
    destruct e' as [k' s']. cbn in E, R. subst k'. exists s'. split; [left; reflexivity|exact R].
  Qed.
  Lemma reorder_stored_back m1 m2 k s' : reorder_model m1 m2 -> In (k, s') (m_shapes m2) ->
    exists s, In (k, s) (m_shapes m1) /\ reorder_shape s s'.
  Proof.
    intros (_ & _ & x & P & F) I.
    enough (X : exists s, In (k, s) x /\ reorder_shape s s') by (destruct X as (s & X & R); exists s; split; [apply (Permutation_in _ (Permutation_sym P)), X|exact R]).
    clear P. induction F as [|e e' x l [E R] F IH]; [destruct I|].
    destruct I as [->|I]; [|destruct (IH I) as (s & I' & R'); exists s; split; [right; exact I'|exact R']].
    destruct e as [k' s]. cbn in E, R. subst k'. exists s. split; [left; reflexivity|exact R].
  Qed.
  Lemma unresolved_reorder a b : reorder_shape a b -> (ts_body a <> KUnresolved <-> ts_body b <> KUnresolved).
  Proof. intros R. rewrite <- !resolved_spec, (resolved_reorder _ _ R). tauto. Qed.
  Lemma namespaces_reorder m1 m2 : one_spelling m1 -> reorder_model m1 m2 -> Permutation (namespaces m1) (namespaces m2).
  Proof.
    intros O R. destruct (P03_Actions.C17_namespaces _ m1) as (A1 & B1 & N1). destruct (P03_Actions.C17_namespaces _ m2) as (A2 & B2 & N2).
    apply NoDup_Permutation; [assumption..|]. intros ns. split; intros I.
    - apply A1 in I as (s & (k & S) & U & E). destruct (reorder_stored _ _ _ _ R S) as (s' & S' & Rs).
      destruct (B2 s') as (ns' & I' & E' & _); [exists k; exact S'|apply (unresolved_reorder _ _ Rs), U|].
      destruct (A2 _ I') as (s2 & (k2 & S2) & U2 & E2). destruct (reorder_stored_back _ _ _ _ R S2) as (s1 & S1 & Rs1).
      replace ns with ns'; [exact I'|]. rewrite <- E, <- E2, <- (proj1 Rs1). apply (O k2 s1 k s); [assumption..|apply (unresolved_reorder _ _ Rs1), U2|exact U|].
      rewrite (proj1 Rs1), E2. rewrite (proj1 Rs). apply ns_eqb_spec, ident_eqb_spec, E'.
    - apply A2 in I as (s & (k & S) & U & E). destruct (reorder_stored_back _ _ _ _ R S) as (s' & S' & Rs).
      destruct (B1 s') as (ns' & I' & E' & _); [exists k; exact S'|apply (unresolved_reorder _ _ Rs), U|].
      destruct (A1 _ I') as (s1 & (k1 & S1) & U1 & E1).
      replace ns with ns'; [exact I'|]. rewrite <- E, <- E1, <- (proj1 Rs). apply (O k1 s1 k s'); [assumption..|apply (unresolved_reorder _ _ Rs), U|].
      rewrite E1. apply ns_eqb_spec, ident_eqb_spec, E'.
  Qed.
End Reorder.
