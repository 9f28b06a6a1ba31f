(** Documents of the Smithy IDL: what is written is read back as a builder. *)
From Verif.Model Require Import SelectorParse SmithyParse SmithyWrite.
From Verif.Spec Require Import IdentitySpec SmithySpec.
From Verif.Proofs Require Import BaseFacts HashMapFacts IdentityFacts ValueFacts PegFacts SmithyGrammarFacts SmithyValueFacts SmithyTraitFacts SmithyShapeFacts.
From Verif.Proofs Require ReorderFacts BuilderFacts.
From Verif.Proofs Require SelectorFacts SelectorGrammarFacts.

(** ** Layout of statements *)
(** Statements, each followed by some white space. *)
Inductive laid : list str -> str -> Prop :=
| laid_nil : laid [] []
| laid_cons t w ts s : blank w -> w <> [] -> laid ts s -> laid (t :: ts) (t ++ w ++ s).
(** The same after white space. *)
Definition lay (ts : list str) (s : str) : Prop := exists w s', s = w ++ s' /\ blank w /\ laid ts s'.
Lemma laid_app a s b t : laid a s -> laid b t -> laid (a ++ b) (s ++ t).
Proof. induction 1 as [|x w ts s BW NW L IH]; intros B; [exact B|]. cbn [app]. rewrite <- !app_assoc. constructor; auto. Qed.
Lemma laid_blank a s w : laid a s -> a <> [] -> blank w -> laid a (s ++ w).
Proof.
  induction 1 as [|x u ts s BW NW L IH]; intros NE B; [congruence|]. rewrite <- !app_assoc. destruct L as [|y u' ts s BU NU L].
  - cbn [app]. replace (u ++ w) with ((u ++ w) ++ []) by apply app_nil_r. constructor; [apply blank_app; assumption| |constructor]. destruct u; [congruence|discriminate].
  - constructor; auto. apply IH; [discriminate|assumption].
Qed.
Lemma lay_app a s b t : lay a s -> lay b t -> lay (a ++ b) (s ++ t).
Proof.
  intros (w & s' & -> & BW & A) (u & t' & -> & BU & B). destruct A as [|x v ts s BV NV A].
  - exists (w ++ u), t'. rewrite app_nil_r, <- app_assoc. split; [reflexivity|]. split; [apply blank_app; assumption|exact B].
  - exists w, ((x ++ v ++ s) ++ u ++ t'). rewrite <- !app_assoc. split; [reflexivity|]. split; [exact BW|].
    assert (L : laid (x :: ts) ((x ++ v ++ s) ++ u)) by (apply laid_blank; [constructor; assumption|discriminate|assumption]).
    assert (R := laid_app _ _ _ _ L B). rewrite <- !app_assoc in R. exact R.
Qed.
Lemma lay_nil w : blank w -> lay [] w.
Proof. intros B. exists w, []. rewrite app_nil_r. split; [reflexivity|]. split; [exact B|constructor]. Qed.
Lemma lay_one t w : blank w -> w <> [] -> lay [t] (t ++ w).
Proof. intros B N. exists [], (t ++ w ++ []). rewrite app_nil_r. split; [reflexivity|]. split; [constructor|]. rewrite <- (app_nil_r (t ++ w)), <- app_assoc. constructor; auto. constructor. Qed.

(** A statement: it takes the white space after it. *)
Definition states (e : pexp irule) (t : str) (Q : ipair -> Prop) : Prop :=
  solid t /\ forall w, blank w -> w <> [] -> exists p, Q p /\ forall r, no_ws r -> ev false e (t ++ w ++ r) (Some ([p], r)).
Lemma laid_no_ws ts s r : laid ts s -> Forall solid ts -> no_ws r -> no_ws (s ++ r).
Proof. intros L F N. destruct L; [exact N|]. inversion F; subst. rewrite <- app_assoc. apply solid_no_ws. assumption. Qed.
Lemma statements_star {X} (l : list X) (d : X -> str) e (Q : X -> ipair -> Prop) s :
  laid (map d l) s -> Forall (fun x => states e (d x) (Q x)) l ->
  exists ps, Forall2 Q l ps /\ forall r, no_ws r -> ev false e r None -> ev false (PStar e) (s ++ r) (Some (ps, r)).
Proof.
  revert s. induction l as [|x l IH]; intros s L F; inversion L as [|t w ts s' BW NW L']; subst; inversion F as [|x0 l0 [SO ST] F']; subst.
  - exists []. split; [constructor|]. intros r _ N. apply ev_star_nil, N.
  - destruct (IH _ L' F') as (ps & A & E). destruct (ST _ BW NW) as (p & P & EP). exists (p :: ps). split; [constructor; assumption|].
    intros r NR N. rewrite <- !app_assoc. refine (star_cons _ _ _ [p] (s' ++ r) ps r (EP _ _) (E r NR N)).
    apply (laid_no_ws _ _ _ L'); [|exact NR]. rewrite Forall_map. apply (Forall_impl _ (P := fun x => states e (d x) (Q x))); [|exact F']. intros y [Y _]. exact Y.
Qed.
Lemma statements_plus {X} (l : list X) (d : X -> str) e (Q : X -> ipair -> Prop) s : l <> [] ->
  laid (map d l) s -> Forall (fun x => states e (d x) (Q x)) l ->
  exists ps, Forall2 Q l ps /\ forall r, no_ws r -> ev false e r None -> ev false (PPlus e) (s ++ r) (Some (ps, r)).
Proof.
  intros NE L F. destruct l as [|x l]; [congruence|]. inversion L as [|t w ts s' BW NW L']; subst. inversion F as [|x0 l0 [SO ST] F']; subst.
  destruct (statements_star l d e Q _ L' F') as (ps & A & E). destruct (ST _ BW NW) as (p & P & EP). exists (p :: ps). split; [constructor; assumption|].
  intros r NR N. rewrite <- !app_assoc. refine (sq _ _ _ _ [p] (s' ++ r) ps r (EP _ _) (E r NR N)).
  apply (laid_no_ws _ _ _ L'); [|exact NR]. rewrite Forall_map. apply (Forall_impl _ (P := fun x => states e (d x) (Q x))); [|exact F']. intros y [Y _]. exact Y.
Qed.

Section Facts.
  Variables (f64_str : Z -> str) (debug_str : str -> str) (f64_parse : str -> Z).
  Context `{Hasher}.
  Variables (ns : str) (m : model).
  Notation value_writable := (value_writable f64_str debug_str f64_parse).
  Notation write_value := (write_value f64_str debug_str).
  Notation traits_writable := (traits_writable f64_str debug_str f64_parse ns m).
  Notation own_writable := (own_writable f64_str debug_str f64_parse ns m).
  Notation idl_value := (idl_value f64_parse).
  Notation trait_text := (trait_text f64_str debug_str ns).
  Notation core := (core f64_str debug_str ns).
  Notation tb := (tb ns).
  Notation bb := (bb ns).

  (** ** Shapes *)
  Definition shape_text (s : shape) : str := suffixed nl (map trait_text (ts_traits s)) ++ core s.
  Definition sb_own (s : shape) : shape_builder := SB (Local (sid_name (ts_id s))) (map tb (ts_traits s)) (bb (ts_body s)).
  Definition shape_of (s : shape) (p : ipair) : Prop :=
    p_rule p = I_shape_statement /\ forall b, shape_statement f64_parse p b = Ok (bd_insert b (sb_own s)).
  Lemma shape_text_solid s : ts_body s <> KUnresolved -> solid (shape_text s).
  Proof.
    intros N. unfold shape_text. destruct (ts_traits s) as [|t ts].
    - apply named_solid. exact (proj1 (core_named f64_str debug_str ns s N)).
    - split; [reflexivity|discriminate].
  Qed.
  Lemma shape_unslashed s r : ts_body s <> KUnresolved -> unslashed (shape_text s ++ r).
  Proof.
    intros N. unfold shape_text. destruct (ts_traits s) as [|t ts]; [|discriminate].
    apply named_unslashed. apply named_app. exact (proj1 (core_named f64_str debug_str ns s N)).
  Qed.
  Lemma states_shape s : short_identifier (sid_name (ts_id s)) -> ts_body s <> KUnresolved -> traits_writable (ts_traits s) ->
    body_writable f64_str debug_str f64_parse ns m (ts_body s) ->
    states (icall I_shape_statement) (shape_text s) (shape_of s).
  Proof.
    intros S N T W. split; [apply shape_text_solid, N|]. intros w BW NW.
    destruct (ev_traits f64_parse nl (trait_items f64_str debug_str ns (ts_traits s)) nl_blank) as (pt & [PT TS] & ET);
      [discriminate|exact (trait_items_ok f64_str debug_str f64_parse ns m _ T)|]. unfold trait_items in TS, ET. rewrite !map_map in TS, ET. cbn [fst snd] in TS, ET.
    destruct (gives_body f64_str debug_str f64_parse ns m s S N W) as (SC & pb & PB & EB).
    exists (Pair I_shape_statement (shape_text s ++ w) [pt; pb]). split; [split; [reflexivity|]|].
    - intros b. unfold shape_statement. cbn [p_inner fold_result]. unfold statement_step at 1. rewrite PT, TS. cbn [rbind].
      unfold statement_step. red in PB. rewrite PB.
      destruct (p_rule pb) eqn:RB; try reflexivity; (unfold body_statement in PB; rewrite RB in PB; discriminate PB).
    - intros r NR. rewrite app_assoc. refine (ev_normal I_shape_statement _ _ r eq_refl _). cbn [snd smithy_rule PSeqs]. rewrite <- app_assoc.
      assert (SS := shape_text_solid s N).
      refine (sq _ _ _ _ [] _ _ r (ev_no_docs _ (solid_app _ _ SS) (shape_unslashed s _ N)) _). refine (sq _ _ _ _ [] _ _ r (ev_no_ws _ _ (solid_no_ws _ _ SS)) _).
      unfold shape_text. rewrite <- app_assoc. destruct (core_named f64_str debug_str ns s N) as [NC _].
      refine (sq _ _ _ _ [pt] _ [pb] r (ET _ (named_app _ _ NC)) _).
      refine (sq_end _ _ _ _ [pb] (w ++ r) r (EB _ (blank_follow _ _ BW NW)) (ev_ws _ _ _ BW NR)).
  Qed.
  Lemma shape_no_use s r : ts_body s <> KUnresolved -> ev false (icall I_use_statement) (shape_text s ++ r) None.
  Proof.
    intros N. unfold shape_text. destruct (ts_traits s) as [|t ts].
    - exact (proj2 (core_named f64_str debug_str ns s N) r).
    - ev_compute.
  Qed.

  (** ** Imports *)
  Definition use_text (s : shape) : str := lit "use " ++ sid_display (ts_id s).
  Definition sb_import (s : shape) : shape_builder := SB (Qualified (ts_id s)) [] BReference.
  Definition use_of (s : shape) (p : ipair) : Prop :=
    p_rule p = I_use_statement /\ exists i more, p_inner p = i :: more /\ p_rule i = I_absolute_root_shape_id /\ p_text i = sid_display (ts_id s).
  Lemma states_use s : absolute (ts_id s) -> states (icall I_use_statement) (use_text s) (use_of s).
  Proof.
    intros A. split; [split; [reflexivity|discriminate]|]. intros w BW NW. destruct (absolute_text _ A) as (ids & NE & F & S & E).
    assert (X : forall r0, exists ps, ev false (icall I_absolute_root_shape_id) (sid_display (ts_id s) ++ w ++ r0)
              (Some ([Pair I_absolute_root_shape_id (sid_display (ts_id s)) ps], w ++ r0))).
    { intros r0. rewrite E. apply (ev_absolute false ids (sid_name (ts_id s)) (w ++ r0) NE F S). apply follow_stop, blank_follow; assumption. }
    (* the inner pairs do not depend on what follows *)
    assert (Y : exists ps, forall r0, ev false (icall I_absolute_root_shape_id) (sid_display (ts_id s) ++ w ++ r0)
              (Some ([Pair I_absolute_root_shape_id (sid_display (ts_id s)) ps], w ++ r0))).
    { eexists. intros r0. refine (ev_normal I_absolute_root_shape_id _ _ (w ++ r0) eq_refl _). cbn [snd smithy_rule PSeqs]. rewrite E, <- app_assoc. cbn [app].
      refine (sq _ _ _ _ _ ("#"%char :: sid_name (ts_id s) ++ w ++ r0) _ _ (ev_namespace false ids _ NE F (hash_stop _) _) _); [ev_compute|].
      refine (sq _ _ _ _ [] (sid_name (ts_id s) ++ w ++ r0) _ _ _ (ev_identifier false _ _ S (follow_stop _ (blank_follow _ _ BW NW)))). ev_compute. }
    destruct Y as [ps Y]. clear X.
    exists (Pair I_use_statement (use_text s ++ w) [Pair I_absolute_root_shape_id (sid_display (ts_id s)) ps]). split.
    - split; [reflexivity|]. eexists. eexists. split; [reflexivity|]. split; reflexivity.
    - intros r NR. rewrite app_assoc. refine (ev_normal I_use_statement _ _ r eq_refl _). cbn [snd smithy_rule PSeqs]. unfold use_text. rewrite <- !app_assoc.
      change (lit "use " ++ sid_display (ts_id s) ++ w ++ r) with (lit "use" ++ lit " " ++ sid_display (ts_id s) ++ w ++ r).
      refine (sq_tok _ (lit "use") _ _ _ _ _). refine (sq _ _ _ _ [] _ _ r (ev_ws _ (lit " ") _ _ _) _); [repeat constructor| |].
      + rewrite E, <- app_assoc. rewrite <- (app_assoc _ _ (w ++ r)) || idtac. apply solid_no_ws. destruct ids as [|x l]; [congruence|].
        inversion F; subst. rewrite SelectorGrammarFacts.join_dotted. apply solid_app, short_solid. assumption.
      + refine (sq_end _ _ _ _ _ (w ++ r) r (Y r) (ev_ws _ _ _ BW NR)).
  Qed.

  (** ** Metadata *)
  Definition metadata_text (e : str * value) : str := lit "metadata " ++ quoted (fst e) ++ lit " = " ++ write_value (snd e) true.
  Definition metadata_of (e : str * value) (p : ipair) : Prop :=
    p_rule p = I_metadata_statement /\ idl_kvp f64_parse p = Ok (quoted (fst e), snd e).
  Lemma states_metadata e : plain_text (fst e) -> value_writable (snd e) -> (forall l, snd e <> VObject l) ->
    states (icall I_metadata_statement) (metadata_text e) (metadata_of e).
  Proof.
    intros P V NO. split; [split; [reflexivity|discriminate]|]. intros w BW NW.
    assert (T : write_value (snd e) true = write_value (snd e) false) by (destruct (snd e); try reflexivity; exfalso; eapply NO; reflexivity).
    destruct (reads_value _ _ _ _ V) as (SO & p & PV & RV & E). rewrite <- T in SO, E.
    exists (Pair I_metadata_statement (metadata_text e ++ w) [Pair I_quoted_text (quoted (fst e)) [Pair I_quoted_chars (fst e) []]; p]). split.
    - split; [reflexivity|]. unfold idl_kvp. cbn [p_inner fold_result kvp_step rbind snd fst]. destruct p as [rp tp ip]. cbn [p_rule] in PV. subst rp.
      cbn [kvp_step]. rewrite RV. reflexivity.
    - intros r NR. rewrite app_assoc. refine (ev_normal I_metadata_statement _ _ r eq_refl _). cbn [snd smithy_rule PSeqs]. unfold metadata_text. rewrite <- !app_assoc.
      change (lit "metadata " ++ quoted (fst e) ++ lit " = " ++ write_value (snd e) true ++ w ++ r)
        with (lit "metadata" ++ lit " " ++ quoted (fst e) ++ lit " = " ++ write_value (snd e) true ++ w ++ r).
      refine (sq_tok _ (lit "metadata") _ _ _ _ _). refine (sq _ _ _ _ [] _ _ r (ev_ws _ (lit " ") _ _ (solid_no_ws _ _ (quoted_solid _))) _); [repeat constructor|].
      refine (sq _ _ _ _ [_] (lit " = " ++ write_value (snd e) true ++ w ++ r) [p] r _ _).
      + apply (ev_silent I_node_object_key); [reflexivity|]. cbn [snd smithy_rule]. apply ev_alt1. apply ev_quoted, P.
      + change (lit " = " ++ write_value (snd e) true ++ w ++ r) with (lit " " ++ lit "=" ++ lit " " ++ write_value (snd e) true ++ w ++ r).
        refine (sq _ _ _ _ [] _ _ r (ev_ws _ (lit " ") _ _ _) _); [repeat constructor|split; [reflexivity|discriminate]|].
        refine (sq_tok _ (lit "=") _ _ _ _ _). refine (sq _ _ _ _ [] _ _ r (ev_ws _ (lit " ") _ _ (solid_no_ws _ _ SO)) _); [repeat constructor|].
        refine (sq_end _ _ _ _ [p] (w ++ r) r (E _ (blank_follow _ _ BW NW)) (ev_ws _ _ _ BW NR)).
  Qed.

  (** ** The version and the namespace *)
  Definition control_text : str := lit "$version: " ++ quoted (lit "1.0").
  Lemma states_control : states (icall I_control_statement) control_text (fun p => p_rule p = I_control_statement
    /\ idl_kvp f64_parse p = Ok (lit "version", VString (lit "1.0"))).
  Proof.
    split; [split; [reflexivity|discriminate]|]. intros w BW NW.
    destruct (reads_text f64_parse (lit "1.0")) as (SO & p & PV & RV & E).
    { apply (plain_cons _ 49%N (lit ".0")); try reflexivity; try discriminate. apply (plain_cons _ 46%N (lit "0")); try reflexivity; try discriminate.
      apply (plain_cons _ 48%N []); try reflexivity; try discriminate. constructor. }
    exists (Pair I_control_statement (control_text ++ w) [Pair I_identifier (lit "version") []; p]). split.
    - split; [reflexivity|]. unfold idl_kvp. cbn [p_inner fold_result kvp_step rbind snd fst]. destruct p as [rp tp ip]. cbn [p_rule] in PV. subst rp.
      cbn [kvp_step]. rewrite RV. reflexivity.
    - intros r NR. rewrite app_assoc. refine (ev_normal I_control_statement _ _ r eq_refl _). cbn [snd smithy_rule PSeqs]. unfold control_text. rewrite <- !app_assoc.
      change (lit "$version: " ++ quoted (lit "1.0") ++ w ++ r) with (lit "$" ++ lit "version" ++ lit ":" ++ lit " " ++ quoted (lit "1.0") ++ w ++ r).
      refine (sq_tok _ (lit "$") _ _ _ _ _). refine (sq _ _ _ _ [] _ _ r (ev_no_ws _ _ _) _); [split; [reflexivity|discriminate]|].
      refine (sq _ _ _ _ [Pair I_identifier (lit "version") []] _ [p] r (ev_object_key (lit "version") _ _ (follow_stop (lit ":" ++ lit " " ++ quoted (lit "1.0") ++ w ++ r) eq_refl)) _).
      { apply short_lit; reflexivity. }
      refine (sq _ _ _ _ [] _ _ r (ev_no_ws _ _ _) _); [split; [reflexivity|discriminate]|]. refine (sq_tok _ (lit ":") _ _ _ _ _).
      refine (sq _ _ _ _ [] _ _ r (ev_ws _ (lit " ") _ _ (solid_no_ws _ _ SO)) _); [repeat constructor|].
      refine (sq_end _ _ _ _ [p] (w ++ r) r (E _ (blank_follow _ _ BW NW)) (ev_ws _ _ _ BW NR)).
  Qed.
  Lemma states_namespace : dotted_name ns -> states (icall I_namespace_statement) (lit "namespace " ++ ns)
    (fun p => p_rule p = I_namespace_statement /\ forall v, namespace_statement v p = Ok (Builder ns v [] [])).
  Proof.
    intros (ids & NE & F & E). split; [split; [reflexivity|discriminate]|]. intros w BW NW.
    exists (Pair I_namespace_statement ((lit "namespace " ++ ns) ++ w) [Pair I_namespace ns []]). split.
    - split; [reflexivity|]. intros v. unfold namespace_statement. cbn [p_inner next rbind p_rule p_text]. unfold builder_new, ns_from_str.
      replace (ns_is_valid ns) with true; [reflexivity|]. symmetry. apply ns_is_valid_spec. exists ids. split; [exact NE|]. split; [|exact E].
      apply (Forall_impl _ SelectorFacts.short_is_identifier), F.
    - intros r NR. rewrite app_assoc. refine (ev_normal I_namespace_statement _ _ r eq_refl _). cbn [snd smithy_rule PSeqs]. rewrite <- !app_assoc.
      change (lit "namespace " ++ ns ++ w ++ r) with (lit "namespace" ++ lit " " ++ ns ++ w ++ r).
      refine (sq_tok _ (lit "namespace") _ _ _ _ _). refine (sq _ _ _ _ [] _ _ r (ev_ws _ (lit " ") _ _ _) _); [repeat constructor| |].
      + rewrite E. apply solid_no_ws. rewrite <- (app_nil_r (join _ ids)). apply dotted_solid; assumption.
      + refine (sq_end _ _ _ _ [Pair I_namespace ns []] (w ++ r) r _ (ev_ws _ _ _ BW NR)). rewrite E.
        apply (ev_namespace false ids (w ++ r) NE F (follow_stop _ (blank_follow _ _ BW NW))).
        assert (FL := blank_follow _ r BW NW). follow_cases FL; ev_compute.
  Qed.
End Facts.
