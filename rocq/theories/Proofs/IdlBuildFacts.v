(** Documents without clashing names: what is built from them. *)
From Verif.Model Require Import SelectorParse SmithyParse SmithyWrite.
From Verif.Spec Require Import IdlSpec.
From Verif.Proofs Require Import BaseFacts HashMapFacts IdentityFacts SmithyValueFacts SmithyTraitFacts IdlDocFacts BuilderFacts.
From Verif.Proofs Require SmithyDocFacts JsonStableFacts IdlShapeFacts.

Section Build.
  Variable f64_parse : str -> Z.
  Context `{Hasher}.
  Variables (d : idl_document) (s : idl_section).
  Hypotheses (SO : section_ok s) (PS : plain_section s).
  Notation section_shapes := (section_shapes f64_parse).
  Notation declared_shape := (declared_shape f64_parse).
  Definition the_builder : builder :=
    Builder (id_namespace s) V10 (metadata_of_doc f64_parse d) (map (fun x => (sb_name x, x)) (section_shapes s)).

  Definition bare_name (n : shape_name) : str := match n with Qualified i => sid_name i | Local n => n end.
  Lemma section_names : map (fun x => bare_name (sb_name x)) (section_shapes s) = map sid_name (id_uses s) ++ map is_name (id_statements s).
  Proof. unfold IdlDocFacts.section_shapes. rewrite map_app, !map_map. reflexivity. Qed.
  Lemma key_names a b : name_key_eqb a b = true -> lower (bare_name a) = lower (bare_name b).
  Proof.
    destruct a as [i|n], b as [j|k]; cbn [name_key_eqb bare_name]; try discriminate.
    - intros E. apply andb_true_iff in E as [_ E]. unfold sid_eqb in E. rewrite !andb_true_iff in E. destruct E as [[_ E] _]. apply str_eqb_eq, E.
    - intros E. apply andb_true_iff in E as [_ E]. apply str_eqb_eq, E.
  Qed.
  Lemma section_distinct : distinct name_key_eqb (map (fun x => (sb_name x, x)) (section_shapes s)).
  Proof.
    destruct PS as [N _]. rewrite <- section_names, map_map in N. revert N. generalize (section_shapes s) as l. induction l as [|x l IH]; intros N; [exact I|].
    cbn [map distinct] in *. inversion N as [|y l0 NI N2]; subst. split; [|apply IH, N2]. intros k v IN. apply in_map_iff in IN as (z & [= <- <-] & IN).
    apply not_true_iff_false. intros E. apply key_names in E. apply NI. apply in_map_iff. exists z. auto.
  Qed.
  Lemma the_run : builder_run (Builder (id_namespace s) V10 [] []) (section_calls f64_parse d s) = Ok the_builder.
  Proof.
    rewrite (section_run f64_parse d s SO). f_equal. rewrite SmithyDocFacts.bd_all_metadata. unfold IdlDocFacts.bd_all.
    fold (SmithyDocFacts.bd_all (Builder (id_namespace s) V10 [] []) (section_shapes s)). rewrite SmithyDocFacts.bd_all_shapes. cbn [bd_namespace bd_version bd_metadata bd_shapes].
    rewrite (insert_all _ name_key_equiv) by exact section_distinct. unfold the_builder. f_equal.
    rewrite (insert_all _ str_eqb_equiv); [reflexivity|]. apply from_list_distinct, str_eqb_equiv.
  Qed.
  Lemma calls_ok : Forall op_ok (section_calls f64_parse d s).
  Proof.
    unfold section_calls. repeat (apply Forall_app; split); rewrite Forall_map; apply Forall_forall; intros x _; cbn; auto.
    destruct (is_body x); discriminate.
  Qed.
  Lemma new_builder : builder_new V10 (id_namespace s) = Ok (Builder (id_namespace s) V10 [] []).
  Proof.
    destruct SO as ((ids & NE & F & E) & _). unfold builder_new, ns_from_str. replace (ns_is_valid (id_namespace s)) with true; [reflexivity|].
    symmetry. apply ns_is_valid_spec. exists ids. split; [exact NE|]. split; [|exact E]. apply (Forall_impl _ SelectorFacts.short_is_identifier), F.
  Qed.
  Lemma the_builder_ok : builder_ok the_builder.
  Proof. eapply builder_run_ok; [exact calls_ok| |exact the_run]. exact (builder_ok_new _ _ _ new_builder). Qed.

  Lemma in_shapes k x : In (k, x) (bd_shapes the_builder) <->
    (exists i, In i (id_uses s) /\ k = Qualified i /\ x = import_builder i) \/ (exists y, In y (id_statements s) /\ k = Local (is_name y) /\ x = declared_shape y).
  Proof.
    cbn [the_builder bd_shapes]. rewrite in_map_iff. unfold IdlDocFacts.section_shapes. split.
    - intros (z & [= <- <-] & I). apply in_app_or in I as [I|I]; apply in_map_iff in I as (y & <- & I); [left|right]; exists y; auto.
    - intros [(i & I & -> & ->)|(y & I & -> & ->)].
      + exists (import_builder i). split; [reflexivity|]. apply in_or_app. left. apply in_map, I.
      + exists (declared_shape y). split; [reflexivity|]. apply in_or_app. right. apply in_map, I.
  Qed.
  Lemma not_reference y : sb_body (declared_shape y) <> BReference.
  Proof. cbn. destruct (is_body y); discriminate. Qed.
  Lemma imported_in i : imported the_builder i <-> In i (id_uses s).
  Proof.
    split.
    - intros (x & I & B). apply in_shapes in I as [(j & J & [= <-] & _)|(y & _ & [=] & _)]. exact J.
    - intros I. exists (import_builder i). split; [|reflexivity]. apply in_shapes. left. exists i. auto.
  Qed.
  (** Names are different. *)
  Lemma NoDup_app_both {A} (a b : list A) x : NoDup (a ++ b) -> In x a -> In x b -> False.
  Proof. induction a as [|y a IH]; [intros _ []|]. cbn. intros N [-> |I] J; inversion N; subst; [|eauto]. apply H2. apply in_or_app. auto. Qed.
  Lemma NoDup_map_inj {A B} (f : A -> B) l x y : NoDup (map f l) -> In x l -> In y l -> f x = f y -> x = y.
  Proof.
    induction l as [|z l IH]; [intros _ []|]. cbn. intros N [-> |I] [-> |J] E; inversion N as [|? ? NI N']; subst; auto.
    - exfalso. apply NI. rewrite E. apply in_map, J.
    - exfalso. apply NI. rewrite <- E. apply in_map, I.
  Qed.
  Lemma names_apart : (forall i j, In i (id_uses s) -> In j (id_uses s) -> same_name (sid_name i) (sid_name j) -> i = j)
    /\ (forall x y, In x (id_statements s) -> In y (id_statements s) -> same_name (is_name x) (is_name y) -> x = y)
    /\ (forall i x, In i (id_uses s) -> In x (id_statements s) -> ~ same_name (sid_name i) (is_name x)).
  Proof.
    destruct PS as [N _]. rewrite map_app, !map_map in N. split; [|split].
    - intros i j I J E. refine (NoDup_map_inj (fun i => lower (sid_name i)) _ _ _ _ I J E). revert N. generalize (map (fun x => lower (sid_name x)) (id_uses s)). clear.
      induction l as [|x l IH]; [intros _; constructor|]. cbn. intros N. inversion N; subst. constructor; [|apply IH; assumption]. intros I. apply H1. apply in_or_app. left. exact I.
    - intros x y I J E. refine (NoDup_map_inj (fun x => lower (is_name x)) _ _ _ _ I J E). revert N. generalize (map (fun x => lower (sid_name x)) (id_uses s)). clear.
      induction l as [|z l IH]; [intros N; exact N|]. cbn. intros N. inversion N; subst. apply IH. assumption.
    - intros i x I J E. refine (NoDup_app_both _ _ (lower (sid_name i)) N _ _); [apply (in_map (fun x => lower (sid_name x))), I|].
      red in E. rewrite E. apply (in_map (fun x => lower (is_name x))), J.
  Qed.
  Lemma declared_in n : declared the_builder n -> exists x, In x (id_statements s) /\ same_name (is_name x) n.
  Proof.
    intros (n' & z & I & E). apply in_shapes in I as [(i & _ & [=] & _)|(y & J & [= ->] & _)]. exists y. split; [exact J|].
    apply andb_true_iff in E as [_ E]. apply str_eqb_eq, E.
  Qed.
  Lemma declared_name_in x : In x (id_statements s) -> declared the_builder (is_name x).
  Proof.
    intros I. exists (is_name x), (declared_shape x). split; [apply in_shapes; right; exists x; auto|]. unfold ident_key_eqb. rewrite Z.eqb_refl, ident_eqb_refl. reflexivity.
  Qed.
  Lemma unknown_resolution t n : Forall (fun n' => ~ same_name n' n) (map sid_name (id_uses s) ++ map is_name (id_statements s)) ->
    ~ in_prelude t n -> resolution the_builder t (Local n) (Ok (own s n, true)).
  Proof.
    intros F P. rewrite Forall_forall in F. apply (rn_unknown the_builder); [| |exact P].
    - intros q [Q E]. apply imported_in in Q. apply (F (sid_name q)); [apply in_or_app; left; apply in_map, Q|exact E].
    - intros D. apply declared_in in D as (x & I & E). apply (F (is_name x)); [apply in_or_app; right; apply in_map, I|exact E].
  Qed.
  Lemma refers_resolution t r id : refers s t r id -> names_to the_builder t (declared_name r) id.
  Proof.
    destruct names_apart as (A1 & A2 & A3). intros [i M|n i I E|x I|n F P|n F P]; cbn [declared_name].
    - exists false. apply rn_absolute, M.
    - exists false. apply rn_import; [split; [apply imported_in, I|exact E]|]. intros q [Q EQ]. apply imported_in in Q. apply A1; [assumption..|]. red in E, EQ |- *. congruence.
    - exists false. apply (rn_declared the_builder t (is_name x)); [|apply declared_name_in, I].
      intros q [Q E]. apply imported_in in Q. exact (A3 _ _ Q I E).
    - rewrite Forall_forall in F. exists false. apply rn_prelude; [| |exact P].
      + intros q [Q E]. apply imported_in in Q. apply (F (sid_name q)); [apply in_or_app; left; apply in_map, Q|exact E].
      + intros D. apply declared_in in D as (x & I & E). apply (F (is_name x)); [apply in_or_app; right; apply in_map, I|exact E].
    - exists true. exact (unknown_resolution t n F P).
  Qed.
  Lemma own_ids k x id : In (k, x) (bd_shapes the_builder) -> own_id the_builder x id ->
    (exists i, In i (id_uses s) /\ k = Qualified i /\ id = i) \/ (exists y, In y (id_statements s) /\ k = Local (is_name y) /\ id = own s (is_name y)).
  Proof.
    intros I O. apply in_shapes in I as [(i & I & -> & ->)|(y & I & -> & ->)].
    - left. exists i. cbn in O. injection O as ->. auto.
    - right. exists y. split; [exact I|]. split; [reflexivity|]. unfold own_id in O.
      assert (B := not_reference y). assert (Q : names_to the_builder false (Local (is_name y)) id) by (destruct (sb_body (declared_shape y)); try exact O; congruence).
      exact (names_to_fun _ _ _ _ _ Q (refers_resolution false _ _ (refers_declared s false y I))).
  Qed.
  Lemma own_id_names k x id : In (k, x) (bd_shapes the_builder) -> own_id the_builder x id -> lower (sid_name id) = lower (bare_name k).
  Proof. intros I O. destruct (own_ids k x id I O) as [(i & _ & -> & ->)|(y & _ & -> & ->)]; reflexivity. Qed.
  Lemma same_key k x k' x' id id' : In (k, x) (bd_shapes the_builder) -> In (k', x') (bd_shapes the_builder) -> own_id the_builder x id -> own_id the_builder x' id' ->
    sid_key_eqb id id' = true -> k' = k.
  Proof.
    destruct names_apart as (A1 & A2 & A3). intros I I' O O' E.
    assert (L : lower (sid_name id) = lower (sid_name id')).
    { apply andb_true_iff in E as [_ E]. unfold sid_eqb in E. rewrite !andb_true_iff in E. destruct E as [[_ E] _]. apply str_eqb_eq, E. }
    rewrite (own_id_names _ _ _ I O), (own_id_names _ _ _ I' O') in L.
    apply in_shapes in I as [(i & I & -> & _)|(y & I & -> & _)]; apply in_shapes in I' as [(i' & I' & -> & _)|(y' & I' & -> & _)]; cbn [bare_name] in L.
    - f_equal. apply A1; auto. red. congruence.
    - exfalso. exact (A3 _ _ I I' L).
    - exfalso. exact (A3 _ _ I' I (eq_sym L)).
    - f_equal. f_equal. apply A2; auto. red. congruence.
  Qed.

  (** Every name resolves. *)
  Definition memberless (n : shape_name) : Prop := match n with Qualified q => sid_member q = None | Local _ => True end.
  Lemma resolves t n : memberless n -> exists id fresh, resolution the_builder t n (Ok (id, fresh)).
  Proof.
    destruct names_apart as (A1 & _ & _). intros M. pose proof (resolve_sound the_builder n t the_builder_ok) as R.
    destruct (resolve_shape_name the_builder n t) as [[id f]|e|]; [eauto| |]; exfalso; inversion R; subst; cbn in M; try congruence.
    match goal with J : BuilderSpec.import_of _ _ ?q, K : BuilderSpec.import_of _ _ ?q', N : ?q <> ?q' |- _ => destruct J as [J E], K as [K E']; apply N end.
    match goal with J : BuilderSpec.imported _ _, K : BuilderSpec.imported _ _ |- _ => apply imported_in in J; apply imported_in in K; apply A1; [assumption..|] end.
    red in E, E' |- *. congruence.
  Qed.
  Lemma memberless_ref r : ref_ok r -> memberless (declared_name r).
  Proof. destruct r as [n|i]; cbn; [auto|]. intros (_ & _ & E). exact E. Qed.
  Definition all_memberless (l : list (bool * shape_name)) : Prop := Forall (fun e => memberless (snd e)) l.
  Lemma memberless_traits docs ts : heading_ok docs ts -> all_memberless (map (fun t => (true, tb_id t)) (declared_traits f64_parse docs ts)).
  Proof.
    intros [_ F]. unfold all_memberless. rewrite Forall_map. apply Forall_forall. intros t I. apply in_app_or in I as [I|I].
    - destruct docs; [destruct I|]. destruct I as [<- |[]]. reflexivity.
    - apply in_map_iff in I as (y & <- & I). rewrite Forall_forall in F. apply (memberless_ref (it_name y)), (F y I).
  Qed.
  Lemma memberless_member m : idl_member_ok m -> all_memberless (member_mentions (declared_member f64_parse m)).
  Proof. intros (A & _ & B). constructor; [apply memberless_ref, B|apply (memberless_traits _ _ A)]. Qed.
  Lemma memberless_members ms : Forall idl_member_ok ms -> all_memberless (flat_map member_mentions (map (declared_member f64_parse) ms)).
  Proof. induction 1 as [|m ms M _ IH]; [constructor|]. cbn [map flat_map]. apply Forall_app. split; [apply memberless_member, M|exact IH]. Qed.
  Lemma last_of_in {A B} (f : A -> option B) l y : last_of f l = Some y -> exists x, In x l /\ f x = Some y.
  Proof.
    unfold last_of. assert (G : forall o, fold_left (fun o x => match f x with Some y => Some y | None => o end) l o = Some y -> o = Some y \/ exists x, In x l /\ f x = Some y).
    { induction l as [|x l IH]; cbn [fold_left]; intros o E; [auto|]. destruct (IH _ E) as [E'|(z & I & F)]; [|right; exists z; cbn; auto].
      destruct (f x) eqn:F; [injection E' as ->; right; exists x; cbn; auto|auto]. }
    intros E. destruct (G _ E) as [[=]|G']. exact G'.
  Qed.
  Lemma memberless_opt n o : (forall r, o = Some r -> ref_ok r) -> all_memberless (member_mentions (opt_member n o)).
  Proof. destruct o as [r|]; intros F; (constructor; [|constructor]); [apply memberless_ref, F; reflexivity|exact Logic.I]. Qed.
  Lemma memberless_named n ms : Forall idl_member_ok ms -> all_memberless (member_mentions (opt_member n (last_named n ms))).
  Proof.
    intros F. apply memberless_opt. intros r E. apply last_of_in in E as (m & I & E). rewrite Forall_forall in F. destruct (str_eqb _ _); [|discriminate]. injection E as <-. apply (F m I).
  Qed.
  Lemma refs_nodes_ok l : node_ok (refs_node l) -> Forall ref_ok l.
  Proof.
    intros N. inversion N as [ | | | | | | |l0 F|]; subst. rewrite Forall_map in F. eapply Forall_impl; [|exact F]. intros r O. inversion O as [ | | | | | |r0 V| |]; subst. apply V.
  Qed.
  Lemma ref_node_ok r : node_ok (IRef r) -> ref_ok r.
  Proof. intros O. inversion O as [ | | | | | |r0 V| |]; subst. apply V. Qed.
  Lemma memberless_list {A} (f : A -> list idl_ref) fs : (forall x, In x fs -> Forall ref_ok (f x)) ->
    all_memberless (map (@Datatypes.pair bool shape_name false) (flat_map (fun x => map declared_name (f x)) fs)).
  Proof.
    intros F. unfold all_memberless. rewrite Forall_map. apply Forall_forall. intros n I. apply in_flat_map in I as (x & X & I). apply in_map_iff in I as (r & <- & I).
    specialize (F x X). rewrite Forall_forall in F. cbn. apply memberless_ref, F, I.
  Qed.
  Lemma memberless_one {A} (f : A -> option idl_ref) fs : (forall x r, In x fs -> f x = Some r -> ref_ok r) -> all_memberless (opt_mention (one_of f fs)).
  Proof.
    intros F. unfold one_of. destruct (last_of f fs) as [r|] eqn:E; cbn; [|constructor]. apply last_of_in in E as (x & I & E). constructor; [|constructor]. cbn. apply memberless_ref, (F _ _ I E).
  Qed.
  Lemma all_app a b : all_memberless a -> all_memberless b -> all_memberless (a ++ b).
  Proof. intros A B. apply Forall_app. auto. Qed.
  Lemma flat_refs {A} (g : A -> list shape_name) (f : A -> list idl_ref) fs : (forall x, g x = map declared_name (f x)) ->
    (forall x, In x fs -> Forall ref_ok (f x)) -> all_memberless (map (@Datatypes.pair bool shape_name false) (flat_map g fs)).
  Proof.
    intros E F. rewrite (flat_map_ext _ _ E). apply memberless_list, F.
  Qed.
  Lemma memberless_body b : idl_body_ok b -> all_memberless (body_mentions (declared_body f64_parse b)).
  Proof.
    assert (One : forall ms P n, (exists m, ms = [m] /\ idl_member_ok m /\ P m) -> all_memberless (member_mentions (opt_member n (last_named n ms)))).
    { intros ms P n (m & -> & O & _). apply memberless_named. constructor; [exact O|constructor]. }
    destruct b as [s0|ms|ms|ms|ms|ms|fs|fs|fs]; cbn [idl_body_ok declared_body body_mentions]; intros O.
    - constructor.
    - exact (One _ _ _ O).
    - exact (One _ _ _ O).
    - destruct O as (F & _). assert (F' : Forall idl_member_ok ms) by (eapply Forall_impl; [|exact F]; intros m M; apply M).
      apply all_app; apply memberless_named, F'.
    - apply memberless_members, O.
    - apply memberless_members, O.
    - destruct O as [[_ F] _]. rewrite Forall_forall in F. rewrite map_app. apply all_app.
      + apply (flat_refs _ (fun f => match f with SvOperations l => l | _ => [] end)); [intros []; reflexivity|].
        intros x I. specialize (F x I). destruct x; try constructor. apply refs_nodes_ok, F.
      + apply (flat_refs _ (fun f => match f with SvResources l => l | _ => [] end)); [intros []; reflexivity|].
        intros x I. specialize (F x I). destruct x; try constructor. apply refs_nodes_ok, F.
    - destruct O as [_ F]. rewrite Forall_forall in F. apply all_app; [|apply all_app].
      + apply memberless_one. intros x r I E. specialize (F x I). destruct x; inversion E; subst. apply ref_node_ok, F.
      + apply memberless_one. intros x r I E. specialize (F x I). destruct x; inversion E; subst. apply ref_node_ok, F.
      + apply (flat_refs _ (fun f => match f with OpErrors l => l | _ => [] end)); [intros []; reflexivity|].
        intros x I. specialize (F x I). destruct x; try constructor. apply refs_nodes_ok, F.
    - destruct O as [[_ F] _]. rewrite Forall_forall in F. apply all_app; [|apply all_app].
      + unfold all_memberless. rewrite Forall_map. apply Forall_forall. intros e I. cbn [declared_resource rsb_identifiers snd] in *.
        destruct e as [k n]. apply (JsonStableFacts.hm_from_list_In ident_key_eqb ident_key_equiv) in I as [_ [k' I]]. cbn [snd]. apply in_flat_map in I as (x & X & I). specialize (F x X). destruct x; try (destruct I; fail).
        apply in_map_iff in I as ([k0 r] & [= <- <-] & I). cbn [resource_entry snd] in F. inversion F as [ | | | | | | | |l0 G]; subst. rewrite Forall_map in G. rewrite Forall_forall in G.
        cbn. apply memberless_ref, ref_node_ok, (G _ I).
      + cbn [flat_map]. repeat apply all_app; try constructor; apply memberless_one; intros x r I E; specialize (F x I); destruct x; inversion E; subst; apply ref_node_ok, F.
      + rewrite !map_app. apply all_app; [|apply all_app].
        * apply (flat_refs _ (fun f => match f with RsOperations l => l | _ => [] end)); [intros []; reflexivity|].
          intros x I. specialize (F x I). destruct x; try constructor. apply refs_nodes_ok, F.
        * apply (flat_refs _ (fun f => match f with RsCollectionOperations l => l | _ => [] end)); [intros []; reflexivity|].
          intros x I. specialize (F x I). destruct x; try constructor. apply refs_nodes_ok, F.
        * apply (flat_refs _ (fun f => match f with RsResources l => l | _ => [] end)); [intros []; reflexivity|].
          intros x I. specialize (F x I). destruct x; try constructor. apply refs_nodes_ok, F.
  Qed.
  Lemma memberless_shape y : idl_statement_ok y -> all_memberless (mentions (declared_shape y)).
  Proof.
    intros (A & _ & B). apply all_app; [|apply all_app].
    - cbn. destruct (is_body y); repeat constructor.
    - apply memberless_body, B.
    - apply (memberless_traits _ _ A).
  Qed.
  Lemma statement_ok y : In y (id_statements s) -> idl_statement_ok y.
  Proof. destruct SO as (_ & _ & F). rewrite Forall_forall in F. apply F. Qed.
  Lemma well_built_shape y : In y (id_statements s) -> well_built (declared_shape y).
  Proof.
    intros I. destruct (statement_ok y I) as (_ & _ & O). unfold well_built. cbn [IdlSpec.declared_shape sb_body].
    destruct (is_body y) as [s0|ms|ms|ms|ms|ms|fs|fs|fs] eqn:B; cbn [declared_body]; try exact Logic.I.
    - destruct (last_named "member" ms); reflexivity.
    - destruct (last_named "member" ms); reflexivity.
    - destruct O as [[N _] [t T]]. destruct (IdlShapeFacts.version_found f64_parse fs t N T) as [_ L]. unfold declared_service. rewrite L. cbn.
      destruct PS as [_ W]. exact (W y fs t I B T).
  Qed.
  Lemma it_builds : forall k x, In (k, x) (bd_shapes the_builder) ->
    well_built x /\ (forall t n, In (t, n) (mentions x) -> exists id fresh, resolution the_builder t n (Ok (id, fresh)))
    /\ (forall k' x' id id', In (k', x') (bd_shapes the_builder) -> own_id the_builder x id -> own_id the_builder x' id' -> sid_key_eqb id id' = true -> k' = k).
  Proof.
    intros k x I. split; [|split].
    - apply in_shapes in I as [(i & _ & _ & ->)|(y & J & _ & ->)]; [exact Logic.I|apply well_built_shape, J].
    - intros t n M. apply resolves. apply in_shapes in I as [(i & _ & _ & ->)|(y & J & _ & ->)]; [destruct M|].
      pose proof (memberless_shape y (statement_ok y J)) as F. red in F. rewrite Forall_forall in F. exact (F _ M).
    - intros k' x' id id' I' O O' E. exact (same_key k x k' x' id id' I I' O O' E).
  Qed.
  Lemma only_statement y : In y (id_statements s) -> only_declaration the_builder (Local (is_name y)) (declared_shape y) (own s (is_name y)).
  Proof.
    intros I. assert (J : In (Local (is_name y), declared_shape y) (bd_shapes the_builder)) by (apply in_shapes; right; exists y; auto).
    assert (O : own_id the_builder (declared_shape y) (own s (is_name y))).
    { unfold own_id. pose proof (refers_resolution false _ _ (refers_declared s false y I)) as R. pose proof (not_reference y). destruct (sb_body (declared_shape y)); try exact R; congruence. }
    split; [exact J|]. split; [exact O|]. intros k' s' id' J' O' E. refine (same_key _ _ _ _ _ _ J J' O O' _). rewrite (eqv_sym _ sid_key_equiv). exact E.
  Qed.
  Lemma only_use i : In i (id_uses s) -> only_declaration the_builder (Qualified i) (import_builder i) i.
  Proof.
    intros I. assert (J : In (Qualified i, import_builder i) (bd_shapes the_builder)) by (apply in_shapes; left; exists i; auto).
    assert (O : own_id the_builder (import_builder i) i) by reflexivity.
    split; [exact J|]. split; [exact O|]. intros k' s' id' J' O' E. refine (same_key _ _ _ _ _ _ J J' O O' _). rewrite (eqv_sym _ sid_key_equiv). exact E.
  Qed.
End Build.
