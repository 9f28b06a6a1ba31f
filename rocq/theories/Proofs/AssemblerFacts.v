From Coq Require Import Sorting.Permutation.
From Verif.Model Require Import Assembler.
From Verif.Spec Require Import AssemblerSpec.
From Verif.Proofs Require Import BaseFacts HashMapFacts ValueFacts ShapeFacts ModelFacts MergeFacts MultiMergeFacts RegistryFacts.

Section WithHasher.
  Context `{Hasher}.

  (** ** Merging keeps models well formed *)
  Lemma append_traits_ok l0 : forall l1 ts u,
    append_traits l1 l0 = (ts, Ok u) -> traits_ok l1 -> traits_ok l0 -> traits_ok ts.
  Proof.
    intros l1 ts u A [D1 W1] [_ W2]. split.
    - pose proof (append_distinct l0 _ D1) as Da. rewrite A in Da. exact Da.
    - clear D1. revert l1 ts A W1. induction l0 as [|[i v] l0 IHl]; intros l1 ts A W1; cbn in A; [injection A as <- _; assumption|].
      inversion W2 as [|? ? [Mi Wv] W2']; subst. cbn in *.
      destruct (apply_with_value l1 i v) as [ts1 [u1| |]] eqn:Ap; try discriminate.
      eapply IHl; eauto. clear IHl A. unfold apply_with_value in Ap.
      destruct (sid_is_member i) eqn:Mb; [discriminate|].
      assert (Q : forall x, tv_ok x -> Forall (fun t => sid_member (fst t) = None /\ match snd t with Some v0 => value_ok v0 | None => True end) (hm_insert sid_key_eqb i x l1)).
      { intros x Wx. apply Forall_forall. intros [i' v'] I. apply hm_insert_In in I as [I|(-> & _ & [->|(v2 & I)])]; auto with equivb.
        - rewrite Forall_forall in W1. apply (W1 _ I).
        - rewrite Forall_forall in W1. destruct (W1 _ I) as [Z _]. cbn in *. split; assumption. }
      destruct (trait_named i l1) as [o|] eqn:G; [|injection Ap as <- _; apply Q; exact Wv].
      destruct (merge_traits i o v) as [nv| |] eqn:Mg; try discriminate. injection Ap as <- _. apply Q.
      assert (Wo : tv_ok o). { unfold trait_named in G. apply hm_get_Some_In in G as (k1 & I & _). rewrite Forall_forall in W1. apply (W1 _ I). }
      apply (merge_traits_spec i) in Mg; auto. inversion Mg as [|? ? ? CV]; subst; cbn in *; [exact I|].
      inversion CV; subst; auto. inversion Wo; inversion Wv; subst. constructor. apply Forall_app; auto.
  Qed.
  Definition shapes_ok (m : model) : Prop := Forall (fun e => shape_ok (snd e)) (m_shapes m).
  Lemma add_shape_shapes_ok m s : shapes_ok m -> shape_ok s -> snd (add_shape m s) = Ok tt -> shapes_ok (fst (add_shape m s)).
  Proof.
    intros Wm Ws R. unfold shapes_ok in *.
    destruct (add_shape_cases m s) as [M U|W' F'|e W' F' N1 N2 E|e W' F' N1 N2 E|e ts r W' F' C A]; try discriminate.
    - apply Forall_forall. intros [k0 v0] I. cbn in *. apply hm_insert_In in I as [I|(-> & _)]; auto with equivb.
      rewrite Forall_forall in Wm. apply (Wm _ I).
    - subst r. assert (We : shape_ok e).
      { unfold model_shape in F'. apply hm_get_Some_In in F' as (k' & I & _). rewrite Forall_forall in Wm. apply (Wm _ I). }
      apply Forall_forall. intros [k0 v0] I. cbn in *.
      apply hm_update_In in I as [I|(v1 & I & -> & _)]; [rewrite Forall_forall in Wm; apply (Wm _ I)|].
      split; cbn; [eapply append_traits_ok; [exact A|apply We|apply Ws]|].
      destruct (ts_body e) eqn:Eb; cbn; try (destruct We as [_ B]; rewrite Eb in B; exact B). apply Ws.
  Qed.
  Lemma merge_shapes_shapes_ok l : forall m,
    shapes_ok m -> Forall (fun e : shape_id * shape => shape_ok (snd e)) l -> snd (merge_shapes m l) = Ok tt ->
    shapes_ok (fst (merge_shapes m l)).
  Proof.
    induction l as [|[k s] l IH]; intros m W F R; [exact W|]. cbn in *. inversion F; subst. cbn in *.
    pose proof (add_shape_shapes_ok m s W) as A. destruct (add_shape m s) as [m' [[]| |]]; cbn in *; try discriminate.
    apply IH; auto.
  Qed.
  Lemma merge_model_ok m o : model_ok m -> model_ok o -> snd (merge m o) = Ok tt -> model_ok (fst (merge m o)).
  Proof.
    intros Wm Wo R. assert (Sp := proj2 (merge_spec m o Wm Wo) R). destruct Sp as (_ & Md & _).
    assert (K := merge_keys_ok m o (proj1 Wm)). split; [exact K|]. split.
    - destruct Wm as (Km & Wms & Wmm), Wo as (Ko & Wos & Wom). unfold merge in *. destruct (negb _); [discriminate|].
      destruct (merge_metadata_shapes (m_metadata o) m) as [S1 S2].
      destruct (merge_metadata m (m_metadata o)) as [m1 [u| |]]; cbn [fst snd] in *; try discriminate.
      apply merge_shapes_shapes_ok; auto. unfold shapes_ok. rewrite S1. exact Wms.
    - apply Forall_forall. intros [k v] I. cbn. specialize (Md k).
      assert (G : metadata_value (fst (merge m o)) k = Some v).
      { apply hm_get_In; [auto with equivb|apply K|exact I]. }
      rewrite G in Md. destruct (metadata_value m k) as [a|] eqn:Ea, (metadata_value o k) as [b|] eqn:Eb.
      + destruct Md as (c & [= <-] & C). assert (Va := metadata_ok _ _ _ Wm Ea). assert (Vb := metadata_ok _ _ _ Wo Eb).
        inversion C; subst; [|exact Va]. inversion Va; inversion Vb; subst. constructor. apply Forall_app; auto.
      + injection Md as ->. exact (metadata_ok _ _ _ Wm Ea).
      + injection Md as ->. exact (metadata_ok _ _ _ Wo Eb).
      + discriminate.
  Qed.

  (** ** One more model *)
  Definition good (ms : list model) (r : model) : Prop :=
    Forall model_ok ms /\ model_ok r /\ ForallOrdPairs models_compatible ms /\ combined_model ms r.
  Lemma metas_ok ms k : Forall model_ok ms -> Forall value_ok (somes (map (fun m => metadata_value m k) ms)).
  Proof.
    intros F. apply Forall_forall. intros v I. apply somes_In in I as (m & I & E). rewrite Forall_forall in F. eapply metadata_ok; eauto.
  Qed.
  Lemma metas_pairs ms k : ForallOrdPairs models_compatible ms -> ForallOrdPairs combinable (somes (map (fun m => metadata_value m k) ms)).
  Proof. apply FOP_somes. intros a b x y [C _] Ea Eb. eapply C; eauto. Qed.
  Lemma shapes_all_ok ms id : Forall model_ok ms -> Forall shape_ok (somes (map (fun m => model_shape m id) ms)).
  Proof.
    intros F. apply Forall_forall. intros v I. apply somes_In in I as (m & I & E). rewrite Forall_forall in F. eapply model_shape_ok; eauto.
  Qed.
  Lemma shapes_pairs ms id : ForallOrdPairs models_compatible ms -> ForallOrdPairs shapes_compatible (somes (map (fun m => model_shape m id) ms)).
  Proof. apply FOP_somes. intros a b x y [_ C] Ea Eb. eapply C; eauto. Qed.
  Lemma FOP_impl {A} (R R' : A -> A -> Prop) l : (forall a b, R a b -> R' a b) -> ForallOrdPairs R l -> ForallOrdPairs R' l.
  Proof. intros I F. induction F; constructor; auto. eapply Forall_impl; [|eassumption]. intros; apply I; assumption. Qed.
  Lemma traits_all_ok ss t : Forall shape_ok ss -> Forall tv_ok (somes (map (fun x => trait_named t (ts_traits x)) ss)).
  Proof.
    intros F. apply Forall_forall. intros v I. apply somes_In in I as (m & I & E). rewrite Forall_forall in F.
    eapply trait_ok; [apply (F _ I)|exact E].
  Qed.
  Lemma traits_pairs ss t : ForallOrdPairs shapes_compatible ss ->
    ForallOrdPairs trait_combinable (somes (map (fun x => trait_named t (ts_traits x)) ss)).
  Proof. apply FOP_somes. intros a b x y [_ C] Ea Eb. exact (C t x y Ea Eb). Qed.
  Lemma combined_trait_none vs : combined_trait vs = None -> vs = [].
  Proof. destruct vs as [|[v|] vs]; cbn; congruence. Qed.
  Lemma combined_none vs : combined vs = None -> vs = [].
  Proof. destruct vs as [|v vs]; [reflexivity|]. unfold combined. destruct (all_arrays _); discriminate. Qed.

  Lemma good_shapes_compatible ms r id s b :
    good ms r -> model_shape r id = Some s -> shape_ok b ->
    (shapes_compatible s b <-> Forall (fun x => shapes_compatible x b) (somes (map (fun m => model_shape m id) ms))).
  Proof.
    intros (Wms & Wr & P & [_ Sh]) E Wb. specialize (Sh id). cbn zeta in Sh. rewrite E in Sh.
    assert (Ws := shapes_all_ok ms id Wms). assert (Ps := shapes_pairs ms id P).
    set (ss := somes (map (fun m => model_shape m id) ms)) in *.
    destruct ss as [|s0 ss0] eqn:Ess; [destruct Sh|]. rewrite <- Ess in *. destruct Sh as (_ & B & T).
    unfold shapes_compatible at 1. rewrite B, first_resolved_compatible by (eapply FOP_impl; [|exact Ps]; intros ? ? [Q _]; exact Q).
    split.
    - intros [Fb Ft]. apply Forall_forall. intros x I. rewrite Forall_forall in Fb. split; [auto|].
      intros t vx vb Ex Eb. assert (Wt := traits_all_ok ss t Ws). assert (Pt := traits_pairs ss t Ps).
      assert (Ix : In vx (somes (map (fun x => trait_named t (ts_traits x)) ss))) by (apply somes_In; eauto).
      destruct (trait_named t (ts_traits s)) as [vs|] eqn:Es.
      + specialize (Ft t vs vb Es Eb). rewrite T in Es.
        apply (combined_trait_combinable _ _ vb Wt (trait_ok _ _ _ (proj1 Wb) Eb) Pt Es) in Ft.
        rewrite Forall_forall in Ft. apply (Ft _ Ix).
      + rewrite T in Es. apply combined_trait_none in Es. rewrite Es in Ix. destruct Ix.
    - intros F. split; [revert F; apply Forall_impl; intros ? [Q _]; exact Q|].
      intros t vs vb Es Eb. assert (Wt := traits_all_ok ss t Ws). assert (Pt := traits_pairs ss t Ps).
      rewrite T in Es. apply (combined_trait_combinable _ _ vb Wt (trait_ok _ _ _ (proj1 Wb) Eb) Pt Es).
      apply Forall_forall. intros vx Ix. apply somes_In in Ix as (x & Ix & Ex). rewrite Forall_forall in F.
      destruct (F x Ix) as [_ Q]. exact (Q t vx vb Ex Eb).
  Qed.

  Lemma good_compatible ms r o :
    good ms r -> model_ok o -> (models_compatible r o <-> Forall (fun m => models_compatible m o) ms).
  Proof.
    intros G Wo. assert (G' := G). destruct G' as (Wms & Wr & P & [Md Sh]). split.
    - intros [Cm Cs]. apply Forall_forall. intros m I. split.
      + intros k x y Ex Ey. assert (Ix : In x (somes (map (fun m => metadata_value m k) ms))) by (apply somes_In; eauto).
        destruct (metadata_value r k) as [z|] eqn:Ez.
        * assert (C := Cm k z y Ez Ey). rewrite Md in Ez.
          apply (combined_combinable _ _ y (metas_ok ms k Wms) (metadata_ok _ _ _ Wo Ey) (metas_pairs ms k P) Ez) in C.
          rewrite Forall_forall in C. apply (C x Ix).
        * rewrite Md in Ez. apply combined_none in Ez. rewrite Ez in Ix. destruct Ix.
      + intros id x y Ex Ey. assert (Ix : In x (somes (map (fun m => model_shape m id) ms))) by (apply somes_In; eauto).
        destruct (model_shape r id) as [z|] eqn:Ez.
        * assert (C := Cs id z y Ez Ey). apply (good_shapes_compatible ms r id z y G Ez (model_shape_ok _ _ _ Wo Ey)) in C.
          rewrite Forall_forall in C. apply (C x Ix).
        * specialize (Sh id). cbn zeta in Sh. rewrite Ez in Sh.
          destruct (somes (map (fun m => model_shape m id) ms)); [destruct Ix|destruct Sh].
    - intros F. rewrite Forall_forall in F. split.
      + intros k z y Ez Ey. rewrite Md in Ez.
        apply (combined_combinable _ _ y (metas_ok ms k Wms) (metadata_ok _ _ _ Wo Ey) (metas_pairs ms k P) Ez).
        apply Forall_forall. intros x Ix. apply somes_In in Ix as (m & I & Ex). destruct (F m I) as [C _]. exact (C k x y Ex Ey).
      + intros id z y Ez Ey. apply (good_shapes_compatible ms r id z y G Ez (model_shape_ok _ _ _ Wo Ey)).
        apply Forall_forall. intros x Ix. apply somes_In in Ix as (m & I & Ex). destruct (F m I) as [_ C]. exact (C id x y Ex Ey).
  Qed.

  Lemma good_step ms r o :
    good ms r -> model_ok o -> snd (merge r o) = Ok tt -> good (ms ++ [o]) (fst (merge r o)).
  Proof.
    intros G Wo R. assert (G' := G). destruct G' as (Wms & Wr & P & [Md Sh]).
    destruct (merge_spec r o Wr Wo) as [Iff Spec]. assert (C := proj1 Iff R). destruct (Spec R) as (_ & M & S).
    split; [apply Forall_app; split; [exact Wms|apply Forall_cons; [exact Wo|apply Forall_nil]]|]. split; [apply merge_model_ok; assumption|].
    split; [apply FOP_snoc; split; [exact P|apply (good_compatible ms r o G Wo), C]|]. split.
    - intros k. specialize (M k). rewrite somes_snoc. cbn beta in *. rewrite Md in M.
      destruct (combined (somes (map (fun m => metadata_value m k) ms))) as [x|] eqn:Ex, (metadata_value o k) as [y|] eqn:Ey.
      + destruct M as (z & -> & V). symmetry. eapply combined_snoc; [apply metas_pairs, P|exact Ex|exact V].
      + rewrite M, app_nil_r. symmetry; exact Ex.
      + apply combined_none in Ex. rewrite Ex. rewrite M. cbn. destruct y; try reflexivity. rewrite app_nil_r. reflexivity.
      + rewrite M, app_nil_r. symmetry; exact Ex.
    - intros id. specialize (S id). specialize (Sh id). cbn zeta in *. rewrite somes_snoc.
      assert (Ps := shapes_pairs ms id P).
      set (ss := somes (map (fun m => model_shape m id) ms)) in *.
      destruct (model_shape r id) as [s|] eqn:Es.
      + destruct ss as [|s0 ss0] eqn:Ess; [destruct Sh|]. destruct Sh as (Si & Sb & St).
        destruct (model_shape o id) as [y|] eqn:Ey.
        * destruct S as (z & -> & (Zi & Zb & Zt)). cbn [app]. split; [congruence|].
          change (s0 :: ss0 ++ [y]) with ((s0 :: ss0) ++ [y]). rewrite first_resolved_snoc. split; [congruence|].
          intros t. specialize (Zt t). rewrite St in Zt. rewrite somes_snoc.
          destruct (combined_trait (somes (map (fun x : shape => trait_named t (ts_traits x)) (s0 :: ss0)))) as [vx|] eqn:Ex;
            destruct (trait_named t (ts_traits y)) as [vy|] eqn:Et.
          -- destruct Zt as (w & -> & V). symmetry. eapply combined_trait_snoc; [apply traits_pairs, Ps|exact Ex|exact V].
          -- rewrite Zt, app_nil_r. symmetry; exact Ex.
          -- apply combined_trait_none in Ex. rewrite Ex, Zt. cbn. destruct vy as [vy|]; [|reflexivity].
             cbn. destruct vy; try reflexivity. rewrite app_nil_r. reflexivity.
          -- rewrite Zt, app_nil_r. symmetry; exact Ex.
        * rewrite S, app_nil_r. auto.
      + destruct ss as [|s0 ss0] eqn:Ess; [|destruct Sh]. cbn [app]. rewrite S.
        destruct (model_shape o id) as [y|] eqn:Ey; [|exact I]. split; [reflexivity|].
        split; [cbn; destruct (ts_body y); reflexivity|]. intros t. cbn [map somes].
        destruct (trait_named t (ts_traits y)) as [[v|]|]; try reflexivity. cbn. destruct v; try reflexivity. rewrite app_nil_r. reflexivity.
  Qed.

  Lemma good_one m : model_ok m -> good [m] m.
  Proof.
    intros W. split; [apply Forall_cons; [exact W|apply Forall_nil]|]. split; [exact W|]. split; [apply FOP_cons; [apply Forall_nil|apply FOP_nil]|]. split.
    - intros k. cbn. destruct (metadata_value m k) as [v|]; [|reflexivity]. cbn. destruct v; try reflexivity. rewrite app_nil_r. reflexivity.
    - intros id. cbn. destruct (model_shape m id) as [s|]; [|exact I]. cbn. split; [reflexivity|].
      split; [destruct (ts_body s); reflexivity|]. intros t. destruct (trait_named t (ts_traits s)) as [[v|]|]; try reflexivity.
      cbn. destruct v; try reflexivity. rewrite app_nil_r. reflexivity.
  Qed.
  Lemma merge_all_spec others : forall ms r,
    good ms r -> Forall model_ok others ->
    ((exists r', merge_all r others = Ok r') <-> ForallOrdPairs models_compatible (ms ++ others))
    /\ (forall r', merge_all r others = Ok r' -> good (ms ++ others) r').
  Proof.
    induction others as [|o others IH]; intros ms r G W.
    - rewrite app_nil_r. cbn. split; [split; [intros _; apply G|eauto]|intros r' [= <-]; exact G].
    - inversion W as [|? ? Wo W']; subst. cbn [merge_all]. assert (Wr : model_ok r) by apply G.
      assert (Iff := proj1 (merge_spec r o Wr Wo)). assert (Step := good_step ms r o G Wo).
      assert (GC := good_compatible ms r o G Wo).
      replace (ms ++ o :: others) with ((ms ++ [o]) ++ others) by (rewrite <- app_assoc; reflexivity).
      assert (Pre : ForallOrdPairs models_compatible ((ms ++ [o]) ++ others) -> Forall (fun m => models_compatible m o) ms).
      { clear. intros F. assert (Q : forall l, ForallOrdPairs models_compatible ((ms ++ [o]) ++ l) -> ForallOrdPairs models_compatible (ms ++ [o])).
        { intros l. induction l as [|x l IH] using rev_ind; [rewrite app_nil_r; auto|]. rewrite app_assoc. intros K.
          apply FOP_snoc in K as [K _]. auto. }
        apply Q in F. apply FOP_snoc in F. tauto. }
      destruct (merge r o) as [m' [[]|e|]]; cbn [fst snd] in *.
      + apply IH; auto.
      + split; [|discriminate]. split; [intros [? ?]; discriminate|]. intros F. apply Pre, GC, Iff in F. discriminate.
      + split; [|discriminate]. split; [intros [? ?]; discriminate|]. intros F. apply Pre, GC, Iff in F. discriminate.
  Qed.
End WithHasher.

(** ** Expansion *)
Section NodeInd.
  Variable P : node -> Prop.
  Hypothesis Pf : forall c, P (NFile c).
  Hypothesis Po : P NOther.
  Hypothesis Pd : forall es, Forall (fun e => P (snd e)) es -> P (NDir es).
  Fixpoint node_ind' (n : node) : P n :=
    match n with
    | NFile c => Pf c
    | NOther => Po
    | NDir es => Pd es ((fix go (es : list (str * node)) : Forall (fun e => P (snd e)) es :=
                           match es with [] => Forall_nil _ | x :: es' => Forall_cons _ (node_ind' (snd x)) (go es') end) es)
    end.
End NodeInd.

Lemma expand_dir r p es : expand_node r p (NDir es) = flat_map (fun e => expand_node r (p ++ [fst e]) (snd e)) es.
Proof. cbn. induction es as [|[c n] es IH]; [reflexivity|]. cbn. rewrite IH. reflexivity. Qed.
Lemma after_last_dot_Some s e : after_last_dot s = Some e <-> exists a, s = a ++ dot :: e /\ ~ In dot e.
Proof.
  assert (N : forall s, after_last_dot s = None <-> ~ In dot s).
  { clear. induction s as [|c s IH]; cbn; [tauto|]. destruct (after_last_dot s) as [x|].
    - split; [discriminate|]. intros N. exfalso. assert (X : ~ In dot s) by tauto. apply IH in X. discriminate.
    - destruct (Ascii.eqb_spec c dot) as [->|D]; [split; [discriminate|tauto]|]. split; [|reflexivity]. intros _ [E|I]; [congruence|]. apply IH in I; auto. }
  revert e. induction s as [|c s IH]; intros e; cbn.
  - split; [discriminate|]. intros ([|? ?] & E & _); discriminate.
  - destruct (after_last_dot s) as [x|] eqn:E.
    + rewrite IH. split; intros (a & Q & D).
      * exists (c :: a). rewrite Q. auto.
      * destruct a as [|y a]; [|injection Q as -> ->; eauto]. injection Q as -> ->. apply N in D. congruence.
    + destruct (Ascii.eqb_spec c dot) as [->|D].
      * split; [intros [= <-]; exists []; split; [reflexivity|apply N, E]|]. intros (a & Q & D). destruct a as [|y a]; [injection Q as ->; reflexivity|].
        injection Q as <- ->. apply N in E. exfalso. apply E. apply in_app_iff. right. now left.
      * split; [discriminate|]. intros (a & Q & D'). destruct a as [|y a]; [injection Q as -> ->; congruence|].
        injection Q as -> ->. apply N in E. exfalso. apply E. apply in_app_iff. right. now left.
Qed.
Lemma path_extension_spec p e : path_extension p = Some e <-> has_extension p e.
Proof.
  unfold path_extension, has_extension. destruct (rev p) as [|f l] eqn:R.
  - split; [discriminate|]. intros (d & st & -> & _). rewrite rev_app_distr in R. discriminate.
  - assert (E : p = rev l ++ [f]) by (rewrite <- (rev_involutive p), R; reflexivity). subst p. clear R. unfold name_extension. split.
    + destruct f as [|c f]; [discriminate|]. intros A. apply after_last_dot_Some in A as (a & -> & D). exists (rev l), (c :: a). repeat split; auto. discriminate.
    + intros (d & st & Q & NE & D). apply app_inj_tail in Q as [_ ->]. destruct st as [|c st]; [congruence|]. cbn. apply after_last_dot_Some. eauto.
Qed.
Lemma read_model_spec r root p m : (exists c, node_at root p = Some (NFile c)) -> (read_model r root p = Ok m <-> reads r root p m).
Proof.
  intros [c C]. unfold read_model, reads. rewrite C. split.
  - destruct (path_extension p) as [e|] eqn:E; [|discriminate]. apply path_extension_spec in E. unfold reg_get. rewrite lower_idem.
    destruct (bt_get (lower e) _) as [ft|] eqn:G; [|discriminate]. intros R. exists c, e, ft. auto.
  - intros (c' & e & ft & [= <-] & E & G & R). apply path_extension_spec in E. rewrite E. unfold reg_get in *. rewrite lower_idem, G. exact R.
Qed.
Lemma push_all ps : forall l, (NoDup l -> NoDup (fold_left push ps l)) /\ forall p, In p (fold_left push ps l) <-> In p l \/ In p ps.
Proof.
  assert (P : forall a b, path_eqb a b = true <-> a = b).
  { intros a b. unfold path_eqb. revert b. induction a as [|x a IH]; intros [|y b]; cbn; try (split; congruence). rewrite andb_true_iff, str_eqb_eq, IH. split; [intros [-> ->]; reflexivity|intros [= -> ->]; auto]. }
  induction ps as [|p ps IH]; intros l; cbn; [split; [auto|intros; tauto]|]. destruct (IH (push l p)) as [A B].
  unfold push in *. destruct (existsb (path_eqb p) l) eqn:E.
  - apply existsb_exists in E as (q & I & Q). apply P in Q as <-. split; [exact A|]. intros q. rewrite B. split; [tauto|]. intros [X|[<-|X]]; auto.
  - assert (N : ~ In p l). { intros I. assert (X : existsb (path_eqb p) l = true) by (apply existsb_exists; exists p; split; [exact I|apply P; reflexivity]). congruence. }
    split.
    + intros D. apply A. clear -D N. induction D as [|x l NI D IHD]; cbn; [repeat constructor; intros []|].
      constructor; [|apply IHD; intros I; apply N; now right]. intros I. apply in_app_iff in I as [I|[<-|[]]]; [auto|apply N; now left].
    + intros q. rewrite B, in_app_iff. cbn. tauto.
Qed.
Definition readable (r : registry) (q : path) : Prop := exists e ft, has_extension q e /\ reg_get r e = Some ft.
Lemma expand_file_In r p q : (In q (match path_extension p with Some e => if reg_contains r e then [p] else [] | None => [] end)) <-> q = p /\ readable r p.
Proof.
  unfold readable, reg_contains. setoid_rewrite <- path_extension_spec. destruct (path_extension p) as [e|]; [|split; [intros []|intros (_ & e & ft & E & _); discriminate]].
  destruct (reg_get r e) as [ft|] eqn:E.
  - split; [intros [<-|[]]; eauto 6|intros [-> _]; now left].
  - split; [intros []|intros (_ & e' & ft & [= <-] & E'); congruence].
Qed.
Lemma expand_node_In r n : forall p q, node_ok n ->
  (In q (expand_node r p n) <-> exists d c, q = p ++ d /\ node_at n d = Some (NFile c) /\ readable r q).
Proof.
  induction n as [c| |es IH] using node_ind'; intros p q W.
  - cbn [expand_node]. rewrite expand_file_In. split.
    + intros [-> R]. exists [], c. rewrite app_nil_r. auto.
    + intros (d & c' & -> & E & R). destruct d; [|discriminate]. rewrite app_nil_r in *. auto.
  - cbn. split; [intros []|intros (d & c & _ & E & _); destruct d; discriminate].
  - rewrite expand_dir, in_flat_map. inversion W as [| |? D F]; subst. rewrite Forall_forall in IH, F. split.
    + intros ([c n] & I & J). cbn in J. apply (IH _ I) in J; [|apply (F _ I)].
      destruct J as (d & x & -> & E & R). exists (c :: d), x. split; [rewrite <- app_assoc; reflexivity|]. split; [|exact R].
      cbn. rewrite (hm_get_In str_eqb str_eqb_equiv es c n D I). exact E.
    + intros (d & x & -> & E & R). destruct d as [|c d]; [discriminate|]. cbn in E.
      destruct (hm_get str_eqb c es) as [n|] eqn:G; [|discriminate]. apply hm_get_Some_In in G as (c' & I & Q).
      apply str_eqb_eq in Q as ->. exists (c, n). split; [exact I|]. cbn. apply (IH _ I); [apply (F _ I)|].
      exists d, x. split; [rewrite <- app_assoc; reflexivity|]. auto.
Qed.
Lemma NoDup_flat_map {A B} (f : A -> list B) l :
  NoDup l -> (forall a, In a l -> NoDup (f a)) -> (forall a b x, In a l -> In b l -> In x (f a) -> In x (f b) -> a = b) ->
  NoDup (flat_map f l).
Proof.
  intros N F D. induction N as [|a l Na N IH]; cbn; [constructor|].
  assert (NoDup (flat_map f l)) by (apply IH; [intros; apply F; now right|intros; eapply D; eauto; now right]).
  assert (Fa : NoDup (f a)) by (apply F; now left).
  assert (Dj : forall x, In x (f a) -> ~ In x (flat_map f l)).
  { intros x I J. apply in_flat_map in J as (b & Ib & J). assert (a = b) by (eapply D; eauto; [now left|now right]). congruence. }
  clear - H Fa Dj. induction Fa as [|x xs Nx Fa IH]; cbn; [exact H|]. constructor.
  - intros I. apply in_app_or in I as [I|I]; [contradiction|]. eapply Dj; eauto. now left.
  - apply IH. intros y I. apply Dj. now right.
Qed.
Lemma distinct_NoDup {V} (es : list (str * V)) : distinct str_eqb es -> NoDup es.
Proof.
  induction es as [|[k v] es IH]; intros D; [constructor|]. destruct D as [D1 D2]. constructor; [|auto].
  intros I. apply D1 in I. rewrite str_eqb_refl in I. discriminate.
Qed.
Lemma expand_node_NoDup r n : forall p, node_ok n -> NoDup (expand_node r p n).
Proof.
  induction n as [c| |es IH] using node_ind'; intros p W.
  - cbn. destruct (path_extension p) as [e|]; [|constructor]. destruct (reg_contains r e); repeat constructor. intros [].
  - constructor.
  - rewrite expand_dir. inversion W as [| |? D F]; subst. rewrite Forall_forall in IH, F. apply NoDup_flat_map.
    + apply distinct_NoDup, D.
    + intros e I. apply IH; auto.
    + intros [c n] [c' n'] x I J X Y. cbn in X, Y.
      apply expand_node_In in X; [|apply (F _ I)]. apply expand_node_In in Y; [|apply (F _ J)].
      destruct X as (d & z & -> & _), Y as (d' & z' & E & _). rewrite <- !app_assoc in E. apply app_inv_head in E.
      cbn in E. injection E as <- _.
      assert (A := hm_get_In str_eqb str_eqb_equiv es c n D I). assert (B := hm_get_In str_eqb str_eqb_equiv es c n' D J). congruence.
Qed.
Lemma node_at_app n p d : node_at n (p ++ d) = match node_at n p with Some n' => node_at n' d | None => None end.
Proof.
  revert n; induction p as [|c p IH]; intros n; [reflexivity|]. cbn. destruct n; try reflexivity.
  destruct (hm_get str_eqb c entries); [apply IH|reflexivity].
Qed.
Lemma node_at_ok n p n' : node_ok n -> node_at n p = Some n' -> node_ok n'.
Proof.
  revert n; induction p as [|c p IH]; intros n W E; [injection E as <-; exact W|]. cbn in E. destruct n; try discriminate.
  destruct (hm_get str_eqb c entries) as [n1|] eqn:G; [|discriminate]. apply hm_get_Some_In in G as (c' & I & _).
  inversion W as [| |? D F]; subst. rewrite Forall_forall in F. eapply IH; [apply (F _ I)|exact E].
Qed.
Lemma expand_path_In r root p q : node_ok root ->
  (In q (expand_path r root p) <-> below p q /\ model_file r root q).
Proof.
  intros W. unfold expand_path, model_file, below. destruct (node_at root p) as [n|] eqn:E.
  - rewrite expand_node_In by (eapply node_at_ok; eauto). split.
    + intros (d & c & -> & F & R). split; [eauto|]. split; [exists c; rewrite node_at_app, E; exact F|exact R].
    + intros ((d & ->) & (c & F) & R). rewrite node_at_app, E in F. exists d, c. auto.
  - split; [intros []|]. intros ((d & ->) & (c & F) & _). rewrite node_at_app, E in F. discriminate.
Qed.
Lemma expand_In r root paths q : node_ok root ->
  (In q (expand_file_paths r root paths) <-> (exists p, In p paths /\ below p q) /\ model_file r root q).
Proof.
  intros W. unfold expand_file_paths. rewrite in_flat_map. split.
  - intros (p & I & J). apply expand_path_In in J as [B M]; auto. eauto.
  - intros ((p & I & B) & M). exists p. split; [exact I|]. apply expand_path_In; auto.
Qed.
Lemma below_common p p' q : below p q -> below p' q -> below p p' \/ below p' p.
Proof.
  intros [d ->] [d' E]. revert p' E. induction p as [|c p IH]; intros p' E; [left; exists p'; reflexivity|].
  destruct p' as [|c' p']; [right; exists (c :: p); reflexivity|]. cbn in E. injection E as <- E.
  destruct (IH p' E) as [[x ->]|[x ->]]; [left|right]; exists x; reflexivity.
Qed.
Lemma expand_NoDup r root paths : node_ok root -> separate paths -> NoDup (expand_file_paths r root paths).
Proof.
  intros W [N A]. apply NoDup_flat_map; [exact N| |].
  - intros p _. unfold expand_path. destruct (node_at root p) as [n|] eqn:E; [|constructor].
    apply expand_node_NoDup. eapply node_at_ok; eauto.
  - intros p p' q I J X Y. apply expand_path_In in X as [X _]; auto. apply expand_path_In in Y as [Y _]; auto.
    destruct (below_common p p' q X Y) as [B|B]; [apply A; auto|symmetry; apply A; auto].
Qed.
Lemma expand_same r root root' paths paths' :
  node_ok root -> node_ok root' -> separate paths -> separate paths' -> same_files root root' ->
  (forall p, In p paths <-> In p paths') ->
  Permutation (expand_file_paths r root paths) (expand_file_paths r root' paths').
Proof.
  intros W W' S S' F P. apply NoDup_Permutation; try (apply expand_NoDup; assumption).
  intros q. rewrite !expand_In by assumption. unfold model_file.
  assert (A : (exists p, In p paths /\ below p q) <-> (exists p, In p paths' /\ below p q)).
  { split; intros (p & I & B); exists p; (split; [apply P, I|exact B]). }
  assert (B : (exists c, node_at root q = Some (NFile c)) <-> (exists c, node_at root' q = Some (NFile c))).
  { split; intros (c & E); exists c; apply F; exact E. }
  rewrite A, B. reflexivity.
Qed.

(** ** Reading all files *)
Lemma collect_ok {A B} (f : A -> result B) l ys : collect f l = Ok ys <-> Forall2 (fun x y => f x = Ok y) l ys.
Proof.
  revert ys; induction l as [|x l IH]; intros ys; cbn.
  - split; [intros [= <-]; constructor|inversion 1; reflexivity].
  - destruct (f x) as [y| |] eqn:E; cbn.
    + destruct (collect f l) as [zs| |] eqn:C; cbn.
      * split.
        -- intros [= <-]. constructor; [exact E|]. apply IH. reflexivity.
        -- intros F. inversion F; subst. assert (y0 = y) by congruence; subst. apply IH in H3. congruence.
      * split; [discriminate|]. intros F. inversion F; subst. apply IH in H3. discriminate.
      * split; [discriminate|]. intros F. inversion F; subst. apply IH in H3. discriminate.
    + split; [discriminate|]. intros F. inversion F; subst. congruence.
    + split; [discriminate|]. intros F. inversion F; subst. congruence.
Qed.
Lemma Forall2_perm {A B} (R : A -> B -> Prop) l l' ys :
  Permutation l l' -> Forall2 R l ys -> exists ys', Forall2 R l' ys' /\ Permutation ys ys'.
Proof.
  intros Q. revert ys. induction Q; intros ys F.
  - inversion F; subst. exists []. split; constructor.
  - inversion F; subst. destruct (IHQ _ H3) as (ys' & F' & P). exists (y :: ys'). split; constructor; auto.
  - inversion F; subst. inversion H3; subst. exists (y1 :: y0 :: l'0). split; [repeat constructor; auto|constructor].
  - destruct (IHQ1 _ F) as (y1 & F1 & P1). destruct (IHQ2 _ F1) as (y2 & F2 & P2). exists y2. split; [exact F2|]. eapply perm_trans; eauto.
Qed.

Section Assembling.
  Context `{Hasher}.

  Lemma read_model_ok r root p m : readers_ok r -> read_model r root p = Ok m -> model_ok m.
  Proof.
    intros W. unfold read_model. destruct (path_extension p) as [s|]; [|discriminate].
    destruct (reg_get r (lower s)) as [ft|] eqn:E; [|discriminate].
    destruct (node_at root p) as [[c| |]|]; try discriminate. intros R. eapply W; eauto.
  Qed.
  Definition read_all (r : registry) (root : node) (paths : list path) (ms : list model) : Prop :=
    Forall2 (fun p m => read_model r root p = Ok m) (expand_file_paths r root paths) ms.
  Lemma read_all_ok r root paths ms : readers_ok r -> read_all r root paths ms -> Forall model_ok ms.
  Proof. intros W F. unfold read_all in F. induction F; constructor; auto. eapply read_model_ok; eauto. Qed.
  Lemma assemble_eq r root paths :
    assemble r root paths
    = (models <- collect (read_model r root) (expand_file_paths r root paths) ;;
       match models with [] => Ok model_default | m :: others => merge_all m others end).
  Proof. destruct paths; reflexivity. Qed.
  Lemma model_default_ok : model_ok model_default.
  Proof. split; [apply model_new_keys_ok|]. split; constructor. Qed.
  Lemma assemble_spec r root paths :
    readers_ok r ->
    ((exists m, assemble r root paths = Ok m) <->
       exists ms, read_all r root paths ms /\ ForallOrdPairs models_compatible ms)
    /\ (forall m, assemble r root paths = Ok m ->
          exists ms, read_all r root paths ms /\ ForallOrdPairs models_compatible ms /\ combined_model ms m /\ model_ok m).
  Proof.
    intros W. rewrite assemble_eq.
    destruct (collect (read_model r root) (expand_file_paths r root paths)) as [ms|e|] eqn:C; cbn [rbind].
    - apply collect_ok in C. assert (Wms := read_all_ok r root paths ms W C).
      assert (U : forall ms', read_all r root paths ms' -> ms' = ms).
      { intros ms' R. apply collect_ok in R. apply collect_ok in C. congruence. }
      destruct ms as [|m others].
      + split; [split; [intros _; exists []; split; [exact C|constructor]|eauto]|].
        intros m [= <-]. exists []. split; [exact C|]. split; [constructor|]. split; [|apply model_default_ok].
        split; intros k; reflexivity.
      + inversion Wms as [|? ? Wm Wo]; subst.
        destruct (merge_all_spec others [m] m (good_one m Wm) Wo) as [Iff G]. cbn [app] in *. split.
        * rewrite Iff. split; [eauto|]. intros (ms' & R & F). rewrite (U _ R) in F. exact F.
        * intros r' R. apply G in R. exists (m :: others). destruct R as (A1 & A2 & A3 & A4). split; [exact C|]. auto.
    - split; [|discriminate]. split; [intros [? ?]; discriminate|]. intros (ms & R & _). apply collect_ok in R. congruence.
    - split; [|discriminate]. split; [intros [? ?]; discriminate|]. intros (ms & R & _). apply collect_ok in R. congruence.
  Qed.

  Lemma read_all_same r root root' paths paths' ms :
    same_files root root' ->
    Permutation (expand_file_paths r root paths) (expand_file_paths r root' paths') ->
    (forall q, In q (expand_file_paths r root paths) -> exists c, node_at root q = Some (NFile c)) ->
    read_all r root paths ms -> exists ms', read_all r root' paths' ms' /\ Permutation ms ms'.
  Proof.
    intros S Q Fl R. apply (Forall2_perm _ _ _ _ Q) in R as (ms' & F & P). exists ms'. split; [|exact P].
    unfold read_all. assert (Fl' : forall q, In q (expand_file_paths r root' paths') -> exists c, node_at root q = Some (NFile c)).
    { intros q I. apply Fl. eapply Permutation_in; [symmetry; exact Q|exact I]. }
    clear - F Fl' S. induction F as [|q m qs ms E F IH]; constructor; [|apply IH; intros; apply Fl'; now right].
    destruct (Fl' q (or_introl eq_refl)) as [c Ec]. unfold read_model in *. rewrite Ec in E. rewrite (proj1 (S q c) Ec). exact E.
  Qed.
  Lemma compatible_perm ms ms' :
    Permutation ms ms' -> Forall model_ok ms -> ForallOrdPairs models_compatible ms -> ForallOrdPairs models_compatible ms'.
  Proof. apply FOP_perm. intros a b Wa Wb. apply models_compatible_sym; assumption. Qed.

  Lemma combined_similar ms ms' m m' :
    Permutation ms ms' -> Forall model_ok ms -> ForallOrdPairs models_compatible ms -> ForallOrdPairs no_array_clash ms ->
    combined_model ms m -> combined_model ms' m' -> model_ok m -> model_ok m' -> similar_model m m'.
  Proof.
    intros Q W P N [M S] [M' S'] Wm Wm'. split; [destruct (m_version m), (m_version m'); reflexivity|]. split.
    - intros k. rewrite M, M'. apply combined_perm; [apply somes_perm, Q|apply metas_ok, W|apply metas_pairs, P|].
      eapply FOP_somes; [|exact N]. intros a b x y [C _] Ea Eb. exact (C k x y Ea Eb).
    - intros id. specialize (S id). specialize (S' id). cbn zeta in *.
      assert (Ws := shapes_all_ok ms id W). assert (Ps := shapes_pairs ms id P).
      assert (Qs := somes_perm (fun m => model_shape m id) _ _ Q).
      assert (Ns : ForallOrdPairs (fun s1 s2 => forall t x y, trait_named t (ts_traits s1) = Some (Some x) -> trait_named t (ts_traits s2) = Some (Some y) -> ~ (is_array_value x /\ is_array_value y)) (somes (map (fun m => model_shape m id) ms))).
      { eapply FOP_somes; [|exact N]. intros a b s1 s2 [_ C] Ea Eb t x y. exact (C id s1 s2 t x y Ea Eb). }
      assert (KS : forall m x s, model_ok m -> model_shape m x = Some s -> same_id (ts_id s) x).
      { intros m0 x s W0 G. apply model_shape_Some_In in G as [_ G]; [|apply W0]. apply sid_eqb_same, sid_key_eqb_eq, G. }
      set (ss := somes (map (fun m => model_shape m id) ms)) in *.
      set (ss' := somes (map (fun m => model_shape m id) ms')) in *.
      destruct (model_shape m id) as [s|] eqn:E, (model_shape m' id) as [s'|] eqn:E'.
      + destruct ss as [|s0 ss0] eqn:Ess; [destruct S|]. destruct ss' as [|s0' ss0'] eqn:Ess'; [destruct S'|].
        rewrite <- Ess, <- Ess' in *. destruct S as (Si & Sb & St), S' as (Si' & Sb' & St'). split; [|split].
        * apply same_id_trans with id; [exact (KS m id s Wm E)|]. apply same_id_sym. exact (KS m' id s' Wm' E').
        * rewrite Sb, Sb'. apply first_resolved_perm; [exact Qs|]. eapply FOP_impl; [|exact Ps]. intros ? ? [B _]; exact B.
        * intros t. rewrite St, St'. apply combined_trait_perm; [apply somes_perm, Qs|apply traits_all_ok, Ws|apply traits_pairs, Ps|].
          eapply FOP_somes; [|exact Ns]. cbn beta. intros a b x y C Ea Eb u v -> ->. exact (C t u v Ea Eb).
      + destruct ss' as [|s0' ss0']; [|destruct S']. symmetry in Qs. apply Permutation_nil in Qs. rewrite Qs in S. destruct S.
      + destruct ss as [|s0 ss0]; [|destruct S]. apply Permutation_nil in Qs. rewrite Qs in S'. destruct S'.
      + exact I.
  Qed.
End Assembling.
