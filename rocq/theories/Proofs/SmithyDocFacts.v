(** Whole documents: the text [write_smithy] makes is read as a builder of the shapes written. *)
From Verif.Model Require Import SelectorParse SmithyParse SmithyWrite.
From Verif.Spec Require Import IdentitySpec SmithySpec.
From Verif.Proofs Require Import BaseFacts HashMapFacts IdentityFacts ValueFacts PegFacts SmithyGrammarFacts SmithyValueFacts SmithyTraitFacts SmithyShapeFacts SmithyFacts.
From Verif.Proofs Require ReorderFacts BuilderFacts JsonFacts.

Lemma split_lay a s b t w0 v : blank w0 -> w0 <> [] -> laid a s -> blank v -> lay b t ->
  exists w s1 s2, (w0 ++ s ++ v) ++ t = w ++ s1 ++ s2 /\ blank w /\ w <> [] /\ laid a s1 /\ laid b s2.
Proof.
  intros B0 N0 A BV (u & t' & -> & BU & B). destruct A as [|x y ts s BY NY A].
  - exists (w0 ++ v ++ u), [], t'. cbn [app]. rewrite <- !app_assoc. split; [reflexivity|].
    repeat split; [apply blank_app; [assumption|apply blank_app; assumption]|destruct w0; [congruence|discriminate]|constructor|exact B].
  - exists w0, ((x ++ y ++ s) ++ v ++ u), t'. rewrite <- !app_assoc. split; [reflexivity|]. repeat split; auto.
    assert (L : laid (x :: ts) ((x ++ y ++ s) ++ (v ++ u))) by (apply laid_blank; [constructor; assumption|discriminate|apply blank_app; assumption]).
    rewrite <- !app_assoc in L. exact L.
Qed.
Lemma laid_suffixed (l : list str) w : blank w -> w <> [] -> laid l (concat (map (fun t => t ++ w) l)).
Proof. intros B N. induction l as [|x l IH]; [constructor|]. cbn [map concat]. rewrite <- app_assoc. constructor; auto. Qed.
Lemma filter_filter {A} (f g : A -> bool) l : (forall x, f x = true -> g x = true) -> filter f (filter g l) = filter f l.
Proof.
  intros I. induction l as [|x l IH]; [reflexivity|]. cbn [filter]. destruct (g x) eqn:G; cbn [filter].
  - rewrite IH. reflexivity.
  - destruct (f x) eqn:F; [rewrite (I _ F) in G; discriminate|exact IH].
Qed.
Lemma Forall2_map_eq {A B C} (f : A -> C) (g : B -> C) l r : Forall2 (fun a b => f a = g b) l r -> map f l = map g r.
Proof. induction 1; cbn; congruence. Qed.
Lemma Forall_filter {A} (f : A -> bool) (P : A -> Prop) l : Forall (fun x => f x = true -> P x) l -> Forall P (filter f l).
Proof. rewrite !Forall_forall. intros F x I. apply filter_In in I as [I E]. exact (F x I E). Qed.

Section Doc.
  Variables (f64_str : Z -> str) (debug_str : str -> str) (f64_parse : str -> Z).
  Context `{Hasher}.
  Variables (ns : str) (m : model).
  Notation model_writable := (model_writable f64_str debug_str f64_parse ns m).
  Notation metadata_text := (metadata_text f64_str debug_str).
  Notation shape_text := (shape_text f64_str debug_str ns).

  Definition imported : list shape := filter is_import (written ns m).
  Definition owned : list shape := filter (is_own ns) (written ns m).

  Lemma imported_shapes : imported = filter is_import (map snd (m_shapes m)).
  Proof. apply filter_filter. intros x ->. reflexivity. Qed.
  Lemma owned_shapes : owned = filter (is_own ns) (map snd (m_shapes m)).
  Proof. apply filter_filter. intros x ->. apply Bool.orb_true_r. Qed.

  Lemma uses_laid : exists s, write_uses m = s ++ nl /\ laid (map use_text imported) s.
  Proof.
    rewrite imported_shapes. unfold write_uses. eexists. split; [reflexivity|].
    replace (filter (fun s => is_unresolved (ts_body s) && negb (has_traits (ts_traits s))) (shapes m)) with (filter is_import (map snd (m_shapes m))).
    - assert (L := laid_suffixed (map use_text (filter is_import (map snd (m_shapes m)))) nl nl_blank ltac:(discriminate)). rewrite map_map in L.
      erewrite map_ext; [exact L|]. intros s. unfold use_text. reflexivity.
    - unfold shapes. apply filter_ext. intros s. unfold is_import. destruct (ts_body s); try reflexivity. destruct (ts_traits s); reflexivity.
  Qed.
  Lemma metadata_laid : exists s, write_metadata f64_str debug_str m = s /\ laid (map metadata_text (m_metadata m)) s.
  Proof.
    eexists. split; [reflexivity|]. unfold write_metadata. destruct (m_metadata m) as [|e md]; [constructor|].
    apply laid_blank; [|discriminate|exact nl_blank].
    assert (L := laid_suffixed (map metadata_text (e :: md)) nl nl_blank ltac:(discriminate)). rewrite map_map in L.
    refine (eq_ind _ (fun z => laid _ (concat z)) L _ (map_ext _ _ _ _)). intros x. unfold SmithyFacts.metadata_text, quoted. rewrite <- !app_assoc. cbn [app]. rewrite <- !app_assoc. reflexivity.
  Qed.
  Lemma shapes_lay : Forall (fun s => ts_body s = KUnresolved -> same_name (sid_ns (ts_id s)) ns -> ts_traits s = []) (map snd (m_shapes m)) ->
    lay (map shape_text owned) (write_shapes f64_str debug_str ns m).
  Proof.
    rewrite owned_shapes. unfold write_shapes, shapes, hm_values. generalize (map snd (m_shapes m)) as l. induction l as [|s l IH]; intros F; [apply lay_nil; constructor|].
    inversion F as [|s0 l0 F1 F2]; subst. specialize (IH F2). cbn [filter]. unfold is_own at 1.
    destruct (ns_eqb (sid_ns (ts_id s)) ns) eqn:E.
    - cbn [map concat]. assert (X : lower (sid_ns (ts_id s)) = lower ns) by (apply str_eqb_eq in E; exact E).
      destruct (is_unresolved (ts_body s)) eqn:U.
      + assert (K : ts_body s = KUnresolved) by (destruct (ts_body s); try discriminate U; reflexivity). specialize (F1 K X).
        rewrite K. change (map shape_text (filter (is_own ns) l)) with ([] ++ map shape_text (filter (is_own ns) l)). apply lay_app; [|exact IH].
        apply lay_nil. unfold write_shape, write_body. rewrite K, F1. exact nl_blank.
      + assert (K : ts_body s <> KUnresolved) by (intros K; rewrite K in U; discriminate).
        replace (match ts_body s with KUnresolved => false | _ => str_eqb (lower (sid_ns (ts_id s))) (lower ns) end) with true
          by (rewrite X; destruct (ts_body s); try (symmetry; apply str_eqb_eq; reflexivity); congruence).
        cbn [map]. change (shape_text s :: map shape_text (filter (is_own ns) l)) with ([shape_text s] ++ map shape_text (filter (is_own ns) l)).
        apply lay_app; [|exact IH]. unfold write_shape. rewrite U, (write_body_core f64_str debug_str ns s K).
        replace (concat (map (write_trait f64_str debug_str ns []) (ts_traits s)) ++ (core f64_str debug_str ns s ++ nl) ++ nl) with (shape_text s ++ (nl ++ nl)).
        * apply lay_one; [apply blank_app; apply nl_blank|discriminate].
        * unfold SmithyFacts.shape_text, suffixed. rewrite map_map, <- !app_assoc. f_equal. f_equal. apply map_ext. intros t. symmetry. apply (write_trait_text f64_str debug_str ns []).
    - replace (match ts_body s with KUnresolved => false | _ => str_eqb (lower (sid_ns (ts_id s))) (lower ns) end) with false; [exact IH|].
      unfold ns_eqb in E. destruct (ts_body s); try reflexivity; symmetry; exact E.
  Qed.

  (** ** What the sections say *)
  Lemma statements_read (is_st : irule -> bool) q t (l : list (str * value)) ps :
    Forall2 (fun e p => is_st (p_rule p) = true /\ idl_kvp f64_parse p = Ok e) l ps -> distinct str_eqb l ->
    idl_statements f64_parse is_st (Pair q t ps) = Ok l.
  Proof.
    intros F D. unfold idl_statements. cbn [p_inner].
    assert (X : forall acc, fold_result (fun vs p => if is_st (p_rule p) then e <- idl_kvp f64_parse p ;; Ok (hm_insert str_eqb (fst e) (snd e) vs)
                          else unexpected "parse_control_section") ps acc = Ok (fold_left (fun m kv => hm_insert str_eqb (fst kv) (snd kv) m) l acc)).
    { clear D. induction F as [|e p l ps [E1 E2] F IH]; intros acc; [reflexivity|]. cbn [fold_result fold_left]. rewrite E1, E2. cbn [rbind]. apply IH. }
    rewrite X, (insert_all _ str_eqb_equiv); [reflexivity|exact D].
  Qed.
  Definition bd_all (b : builder) (l : list shape_builder) : builder := fold_left bd_insert l b.
  Lemma uses_read l q t ps b : Forall (fun s => absolute (ts_id s)) l -> Forall2 use_of l ps ->
    use_section (Pair q t ps) b = Ok (bd_all b (map sb_import l)).
  Proof.
    intros A F. unfold use_section. cbn [p_inner]. revert b. induction F as [|s p l ps (E & i & more & PI & RI & TI) F IH]; intros b; [reflexivity|].
    inversion A; subst. cbn [fold_result map bd_all fold_left]. rewrite E, PI. cbn [next rbind]. rewrite RI, TI. unfold bd_uses, reference_new.
    rewrite absolute_from_str by assumption. cbn [unwrap rbind]. apply IH. assumption.
  Qed.
  Lemma shapes_read l q t ps b : Forall2 (shape_of f64_parse ns) l ps ->
    shape_statements f64_parse (Pair q t ps) b = Ok (bd_all b (map (sb_own ns) l)).
  Proof.
    intros F. unfold shape_statements. cbn [p_inner]. revert b. induction F as [|s p l ps [E P] F IH]; intros b; [reflexivity|].
    cbn [fold_result map bd_all fold_left]. rewrite E, P. apply IH.
  Qed.

  (** ** Matching the document *)
  Lemma namespace_matched : dotted_name ns -> Forall (fun s => absolute (ts_id s)) imported ->
    Forall (fun s => short_identifier (sid_name (ts_id s)) /\ ts_body s <> KUnresolved /\ traits_writable f64_str debug_str f64_parse ns m (ts_traits s)
                     /\ body_writable f64_str debug_str f64_parse ns m (ts_body s)) owned ->
    forall w s1 s2, blank w -> w <> [] -> laid (map use_text imported) s1 -> laid (map shape_text owned) s2 ->
    exists p, ev false (icall I_shape_section) ((lit "namespace " ++ ns) ++ w ++ s1 ++ s2) (Some ([p], []))
      /\ p_rule p = I_shape_section
      /\ shape_section f64_parse V10 p = Ok (Some (bd_all (Builder ns V10 [] []) (map sb_import imported ++ map (sb_own ns) owned))).
  Proof.
    intros DN AI OW w s1 s2 BW NW L1 L2.
    destruct (states_namespace ns DN) as [SN TN]. destruct (TN w BW NW) as (pn & [RN PN] & EN).
    assert (SU : Forall (fun s => states (icall I_use_statement) (use_text s) (use_of s)) imported).
    { apply (Forall_impl _ (P := fun s => absolute (ts_id s))); [|exact AI]. intros s A. apply states_use, A. }
    assert (SS : Forall (fun s => states (icall I_shape_statement) (shape_text s) (shape_of f64_parse ns s)) owned).
    { eapply Forall_impl; [|exact OW]. intros s (A & B & C & D). cbn beta. apply (states_shape f64_str debug_str f64_parse ns m); assumption. }
    assert (N2 : no_ws s2).
    { rewrite <- (app_nil_r s2). apply (laid_no_ws _ _ _ L2); [|exact I]. rewrite Forall_map. eapply Forall_impl; [|exact SS]. intros s [S _]. exact S. }
    assert (N1 : no_ws (s1 ++ s2)).
    { apply (laid_no_ws _ _ _ L1); [|exact N2]. rewrite Forall_map. eapply Forall_impl; [|exact SU]. intros s [S _]. exact S. }
    assert (NU : ev false (icall I_use_statement) s2 None).
    { destruct owned as [|s l] eqn:EO.
      - inversion L2; subst. ev_compute.
      - inversion L2 as [|t0 w0 ts0 s0 BW0 NW0 L0]; subst. inversion OW as [|s' l' (_ & B & _) _]; subst. apply (shape_no_use f64_str debug_str ns s _ B). }
    (* imports *)
    assert (UU : exists us, ev false (POpt (icall I_use_section)) (s1 ++ s2) (Some (us, s2))
        /\ (us = [] /\ imported = [] \/ exists ps, us = [Pair I_use_section s1 ps] /\ Forall2 use_of imported ps)).
    { destruct imported as [|x l] eqn:EI.
      - inversion L1; subst. exists []. split; [|left; split; reflexivity]. cbn [app]. apply ev_opt2. apply ev_rule_fail. cbn [fst snd smithy_rule sub_atomic].
        apply ev_seq_fail1. exact NU.
      - rewrite <- EI in *. destruct (statements_plus imported use_text (icall I_use_statement) use_of s1) as (ps & A & E); [rewrite EI; discriminate|exact L1|exact SU|].
        exists [Pair I_use_section s1 ps]. split; [|right; exists ps; split; [reflexivity|exact A]]. apply ev_opt1. apply (ev_normal I_use_section); [reflexivity|].
        exact (E s2 N2 NU). }
    destruct UU as (us & EU & CU).
    assert (SH : exists ss, ev false (POpt (icall I_shape_statements)) s2 (Some (ss, []))
        /\ (ss = [] /\ owned = [] \/ exists ps, ss = [Pair I_shape_statements s2 ps] /\ Forall2 (shape_of f64_parse ns) owned ps)).
    { destruct owned as [|x l] eqn:EO.
      - inversion L2; subst. exists []. split; [|left; split; reflexivity]. ev_compute.
      - rewrite <- EO in *. destruct (statements_plus owned shape_text (PAlt (icall I_shape_statement) (icall I_apply_statement)) (shape_of f64_parse ns) s2) as (ps & A & E);
          [rewrite EO; discriminate|exact L2| |].
        { eapply Forall_impl; [|exact SS]. intros s [S T]. split; [exact S|]. intros w' BW' NW'. destruct (T w' BW' NW') as (p & P & EP). exists p. split; [exact P|].
          intros r NR. apply ev_alt1, EP, NR. }
        exists [Pair I_shape_statements s2 ps]. split; [|right; exists ps; split; [reflexivity|exact A]]. apply ev_opt1.
        assert (X : ev false (snd (smithy_rule I_shape_statements)) (s2 ++ []) (Some (ps, []))) by (apply (E [] I); ev_compute).
        rewrite <- (app_nil_r s2) at 1. exact (ev_normal I_shape_statements s2 ps [] eq_refl X). }
    destruct SH as (ss & ES & CS).
    exists (Pair I_shape_section ((lit "namespace " ++ ns) ++ w ++ s1 ++ s2) ([pn] ++ us ++ ss)). split; [|split; [reflexivity|]].
    - rewrite <- (app_nil_r ((lit "namespace " ++ ns) ++ w ++ s1 ++ s2)) at 1. apply (ev_normal I_shape_section); [reflexivity|]. rewrite app_nil_r. apply ev_opt1.
      cbn [PSeqs]. refine (sq _ _ _ _ [pn] (s1 ++ s2) (us ++ ss) [] (EN _ N1) _). exact (sq _ _ _ _ us s2 ss [] EU ES).
    - unfold shape_section. cbn [p_inner]. cbn [app fold_result]. rewrite RN, PN. cbn [rbind].
      assert (FU : fold_result (fun (ob : option builder) q =>
          match p_rule q with
          | I_namespace_statement => b <- namespace_statement V10 q ;; Ok (Some b)
          | I_use_section => match ob with Some b => b' <- use_section q b ;; Ok (Some b') | None => Panic end
          | I_shape_statements => match ob with Some b => b' <- shape_statements f64_parse q b ;; Ok (Some b') | None => Panic end
          | _ => unexpected "parse_shape_section"
          end) us (Some (Builder ns V10 [] [])) = Ok (Some (bd_all (Builder ns V10 [] []) (map sb_import imported)))).
      { destruct CU as [[-> ->]|(ps & -> & A)]; [reflexivity|]. cbn [fold_result p_rule]. rewrite (uses_read imported _ _ ps _ AI A). reflexivity. }
      rewrite fold_result_app, FU. cbn [rbind]. unfold bd_all at 2. rewrite fold_left_app. fold (bd_all (Builder ns V10 [] []) (map sb_import imported)).
      destruct CS as [[-> ->]|(ps & -> & A)]; [reflexivity|]. cbn [fold_result p_rule]. rewrite (shapes_read owned _ _ ps _ A). reflexivity.
  Qed.

  Definition md_builder : list (str * value) := map metadata_back (m_metadata m).
  Definition doc_builder : builder :=
    Builder ns V10 md_builder (map (fun sb => (sb_name sb, sb)) (map sb_import imported ++ map (sb_own ns) owned)).

  Lemma star_section q e {X} (l : list X) (d : X -> str) (Q : X -> ipair -> Prop) s : smithy_rule q = (Normal, PStar e) ->
    laid (map d l) s -> Forall (fun x => states e (d x) (Q x)) l ->
    exists ps, Forall2 Q l ps /\ forall r, no_ws r -> ev false e r None -> ev false (icall q) (s ++ r) (Some ([Pair q s ps], r)).
  Proof.
    intros R L F. destruct (statements_star l d e Q s L F) as (ps & A & E). exists ps. split; [exact A|]. intros r NR N.
    apply ev_normal; [rewrite R; reflexivity|]. rewrite R. exact (E r NR N).
  Qed.
  Lemma quoted_inj a b : quoted a = quoted b -> a = b.
  Proof. unfold quoted. intros [= E]. apply app_inj_tail in E. apply E. Qed.
  Lemma quoted_distinct (l : list (str * value)) : distinct str_eqb l -> distinct str_eqb (map metadata_back l).
  Proof.
    induction l as [|[k v] l IH]; [trivial|]. cbn [map distinct metadata_back fst snd]. intros [A D]. split; [|apply IH, D].
    intros k' v' I. apply in_map_iff in I as ([k0 v0] & [= <- <-] & I). apply str_eqb_neq. intros E. apply quoted_inj in E. specialize (A _ _ I).
    apply str_eqb_neq in A. congruence.
  Qed.
  Lemma bd_all_shapes l : forall b, bd_all b l =
    Builder (bd_namespace b) (bd_version b) (bd_metadata b)
      (fold_left (fun ms kv => hm_insert name_key_eqb (fst kv) (snd kv) ms) (map (fun sb => (sb_name sb, sb)) l) (bd_shapes b)).
  Proof. induction l as [|x l IH]; intros b; [destruct b; reflexivity|]. cbn [map fold_left bd_all]. fold (bd_all (bd_insert b x) l). rewrite IH. reflexivity. Qed.
  Lemma bd_all_metadata (l : list (str * value)) : forall b, fold_left (fun b e => bd_metadata_insert b (fst e) (snd e)) l b =
    Builder (bd_namespace b) (bd_version b) (fold_left (fun ms kv => hm_insert str_eqb (fst kv) (snd kv) ms) l (bd_metadata b)) (bd_shapes b).
  Proof. induction l as [|x l IH]; intros b; [destruct b; reflexivity|]. cbn [map fold_left]. rewrite IH. reflexivity. Qed.

  Lemma not_bare s : is_own ns s = true -> ts_body s <> KUnresolved.
  Proof. unfold is_own. intros E X. rewrite X in E. discriminate. Qed.
  Lemma builder_names : model_writable -> distinct name_key_eqb (map (fun sb => (sb_name sb, sb)) (map sb_import imported ++ map (sb_own ns) owned)).
  Proof.
    intros (_ & _ & _ & D & N & _). rewrite map_app, !map_map. unfold imported, owned in *.
    assert (D1 : distinct name_key_eqb (map (fun s => (sb_name (sb_import s), sb_import s)) (filter is_import (written ns m)))).
    { revert D. clear. generalize (written ns m) as l. induction l as [|s l IH]; [trivial|]. cbn [map distinct filter]. intros [A D].
      destruct (is_import s); [|apply IH, D]. cbn [map distinct sb_name sb_import]. split; [|apply IH, D].
      intros k v I. apply in_map_iff in I as (x & [= <- <-] & I). apply filter_In in I as [I _]. apply (A (ts_id x) x). apply in_map_iff. exists x. auto. }
    assert (D2 : distinct name_key_eqb (map (fun s => (sb_name (sb_own ns s), sb_own ns s)) (filter (is_own ns) (written ns m)))).
    { revert N. clear. generalize (filter (is_own ns) (written ns m)) as l. induction l as [|s l IH]; [intros _; exact I|]. cbn [map distinct]. intros N. inversion N as [|y l0 NI N2]; subst.
      cbn [sb_name sb_own]. split; [|apply IH; assumption]. intros k v I. apply in_map_iff in I as (x & [= <- <-] & I). cbn [name_key_eqb].
      destruct (ident_key_eqb (sid_name (ts_id x)) (sid_name (ts_id s))) eqn:E; [|reflexivity]. exfalso. apply NI.
      apply andb_true_iff in E as [_ E]. apply str_eqb_eq in E. rewrite <- E.
      apply (in_map (fun s => lower (sid_name (ts_id s)))). exact I. }
    revert D1. generalize (filter is_import (written ns m)) as l. induction l as [|s l IH]; [intros _; exact D2|]. cbn [map distinct app sb_name sb_import].
    intros [A D1]. split; [|apply IH, D1]. intros k v I. apply in_app_or in I as [I|I]; [exact (A k v I)|].
    apply in_map_iff in I as (x & [= <- <-] & I). reflexivity.
  Qed.

  Lemma parse_written : model_writable -> parse_model f64_parse (write_smithy f64_str debug_str ns m) = build doc_builder.
  Proof.
    intros MW. assert (BN := builder_names MW). destruct MW as (DN & DM & FM & D & N & AI & OW & NA).
    assert (AI' : Forall (fun s => absolute (ts_id s)) imported) by (apply Forall_filter, AI).
    assert (OW' : Forall (fun s => short_identifier (sid_name (ts_id s)) /\ ts_body s <> KUnresolved /\ traits_writable f64_str debug_str f64_parse ns m (ts_traits s)
                     /\ body_writable f64_str debug_str f64_parse ns m (ts_body s)) owned).
    { apply Forall_forall. intros s I. apply filter_In in I as [I E]. rewrite Forall_forall in OW. destruct (OW s I E) as ((n & EI & SI & _) & T & B).
      rewrite EI. split; [exact SI|]. split; [exact (not_bare _ E)|]. split; assumption. }
    destruct metadata_laid as (sm & EM & LM). destruct uses_laid as (su & EU & LU). assert (LS := shapes_lay NA).
    destruct (split_lay _ su _ _ (nl ++ nl) nl (blank_app _ _ nl_blank nl_blank) ltac:(discriminate) LU nl_blank LS) as (w & s1 & s2 & ET & BW & NW & L1 & L2).
    destruct (namespace_matched DN AI' OW' w s1 s2 BW NW L1 L2) as (ps & ES & RS & PS).
    (* the sections before the namespace *)
    destruct (star_section I_metadata_section (icall I_metadata_statement) (m_metadata m) metadata_text (metadata_of f64_parse) sm eq_refl LM) as (pms & FPM & EMS).
    { eapply Forall_impl; [|exact FM]. intros e (A & B & C). apply (states_metadata f64_str debug_str f64_parse); assumption. }
    destruct (star_section I_control_section (icall I_control_statement) [tt] (fun _ => control_text)
       (fun _ p => p_rule p = I_control_statement /\ idl_kvp f64_parse p = Ok (lit "version", VString (lit "1.0"))) (control_text ++ nl ++ nl) eq_refl) as (pcs & FPC & ECS).
    { cbn [map]. rewrite <- (app_nil_r (nl ++ nl)). constructor; [apply blank_app; apply nl_blank|discriminate|constructor]. }
    { repeat constructor; apply (states_control f64_parse). }
    set (rest := (lit "namespace " ++ ns) ++ w ++ s1 ++ s2) in *.
    assert (TX : write_smithy f64_str debug_str ns m = (control_text ++ nl ++ nl) ++ sm ++ rest).
    { unfold write_smithy, write_control. rewrite EM. replace (version_display (m_version m)) with (lit "1.0") by (destruct (m_version m); reflexivity).
      unfold rest. rewrite <- ET, EU. unfold write_namespace, control_text, quoted. rewrite <- !app_assoc. cbn [app]. rewrite <- !app_assoc. reflexivity. }
    assert (NR : no_ws rest) by (unfold rest; rewrite <- app_assoc; split; [reflexivity|discriminate]).
    assert (NS : no_ws (sm ++ rest)).
    { apply (laid_no_ws _ _ _ LM); [|exact NR]. rewrite Forall_map. apply Forall_forall. intros e _. split; [reflexivity|discriminate]. }
    assert (ME : ev false (icall I_metadata_statement) rest None) by (unfold rest; rewrite <- app_assoc; ev_compute).
    assert (CE : ev false (icall I_control_statement) (sm ++ rest) None).
    { destruct (m_metadata m) as [|e md]; inversion LM as [|t0 w0 ts0 s0 BW0 NW0 L0]; subst; [unfold rest; rewrite <- app_assoc; ev_compute|].
      unfold SmithyFacts.metadata_text. rewrite <- !app_assoc. ev_compute. }
    set (whole_text := write_smithy f64_str debug_str ns m) in *.
    set (top := Pair I_idl whole_text [Pair I_control_section (control_text ++ nl ++ nl) pcs; Pair I_metadata_section sm pms; ps; Pair I_EOI [] []]).
    assert (EV : ev false (icall I_idl) whole_text (Some ([top], []))).
    { unfold top. rewrite <- (app_nil_r whole_text) at 1. apply (ev_normal I_idl); [reflexivity|]. cbn [snd smithy_rule PSeqs]. rewrite app_nil_r.
      change whole_text with ([] ++ whole_text). refine (sq_tok _ [] _ _ _ _ _). rewrite TX.
      refine (sq _ _ _ _ [] ((control_text ++ nl ++ nl) ++ sm ++ rest) _ [] (ev_no_ws _ _ _) _); [split; [reflexivity|discriminate]|].
      refine (sq _ _ _ _ [_] (sm ++ rest) [_; _; _] [] (ECS _ NS CE) _). refine (sq _ _ _ _ [_] rest [_; _] [] (EMS _ NR ME) _).
      refine (sq _ _ _ _ [ps] [] [_] [] ES _). ev_compute. }
    unfold parse_model, parse_rule. destruct (smithy_total false I_idl whole_text (smithy_fuel whole_text) (le_n _)) as [r R]. rewrite R.
    assert (Z := evals_det _ _ _ _ _ _ (ev_run _ _ _ _ _ _ R) EV). subst r. cbn [next rbind fst]. unfold parse_idl, top. cbn [p_rule p_inner].
    unfold next_section at 1. cbn [next rbind p_rule].
    assert (C : control_section f64_parse (Pair I_control_section (control_text ++ nl ++ nl) pcs) = Ok [(lit "version", VString (lit "1.0"))]).
    { apply statements_read; [|split; [intros k v []|exact I]]. inversion FPC as [|x y l l' [R1 R2] F0]; subst. inversion F0; subst. constructor; [|constructor].
      split; [rewrite R1; reflexivity|exact R2]. }
    rewrite C. cbn [rbind fst snd]. change (hm_get str_eqb (lit "version") [(lit "version", VString (lit "1.0"))]) with (Some (VString (lit "1.0"))). cbv iota.
    change (version_from_str (lit "1.0")) with (@Ok version V10). cbn [rbind]. unfold next_section at 1. cbn [next rbind p_rule].
    assert (M : metadata_section f64_parse (Pair I_metadata_section sm pms) = Ok md_builder).
    { apply statements_read; [|apply quoted_distinct, DM]. unfold md_builder. revert FPM. generalize (m_metadata m) as l. generalize pms as qs.
      induction qs as [|q qs IH]; intros l F; inversion F as [|x y l0 l' [R1 R2] F0]; subst; constructor; [|apply IH, F0]. split; [rewrite R1; reflexivity|exact R2]. }
    rewrite M. cbn [rbind fst snd]. unfold next_section. cbn [next rbind]. rewrite RS, PS. cbn [rbind fst snd].
    rewrite bd_all_metadata, bd_all_shapes. cbn [bd_namespace bd_version bd_metadata bd_shapes].
    rewrite (insert_all _ str_eqb_equiv) by (apply quoted_distinct, DM). rewrite (insert_all _ BuilderFacts.name_key_equiv) by exact BN. reflexivity.
  Qed.
End Doc.
