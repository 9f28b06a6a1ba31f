(** Whole documents: they are read as the calls of the model builder they stand for. *)
From Verif.Model Require Import SelectorParse SmithyParse SmithyWrite.
From Verif.Spec Require Import IdlSpec.
From Verif.Proofs Require Import BaseFacts HashMapFacts IdentityFacts ValueFacts PegFacts SmithyGrammarFacts SmithyValueFacts SmithyTraitFacts SmithyShapeFacts SmithyFacts LayoutFacts LayoutParse IdlValueFacts IdlShapeFacts.
From Verif.Proofs Require SelectorFacts SelectorGrammarFacts SmithyDocFacts BuilderFacts.

Lemma all_lines_laid l : laid l (all_lines l).
Proof. apply SmithyDocFacts.laid_suffixed; [apply line_end_blank|discriminate]. Qed.
Lemma all_lines_app a b : all_lines (a ++ b) = all_lines a ++ all_lines b.
Proof. unfold all_lines. rewrite map_app, concat_app. reflexivity. Qed.

Section Doc.
  Variable f64_parse : str -> Z.
  Context `{Hasher}.
  Notation node_value := (node_value f64_parse).
  Notation declared_shape := (declared_shape f64_parse).

  (** ** Statements *)
  Definition statement_of (s : idl_statement) (p : ipair) : Prop :=
    p_rule p = I_shape_statement /\ forall b, shape_statement f64_parse p b = Ok (bd_insert b (declared_shape s)).
  Lemma statement_docs docs : forall a b c more,
    fold_result (statement_step f64_parse) (map doc_pair docs ++ more) (a, b, c)
    = fold_result (statement_step f64_parse) more (a ++ map trim_start docs, b, c).
  Proof.
    induction docs as [|x docs IH]; intros a b c more; cbn [map app]; [rewrite app_nil_r; reflexivity|].
    cbn [fold_result]. unfold statement_step at 1. cbn [doc_pair p_rule rbind]. rewrite IH, <- app_assoc. reflexivity.
  Qed.
  Lemma statement_solid s : solid (idl_statement_text s).
  Proof. apply heading_solid, body_named. Qed.
  Lemma states_statement s : idl_statement_ok s -> states (icall I_shape_statement) (idl_statement_text s) (statement_of s).
  Proof.
    intros (HO & S & BO). split; [apply statement_solid|]. intros w BW NW.
    destruct (ev_heading f64_parse _ _ HO) as (pt & [PT TS] & ET). destruct (gives_body_n f64_parse _ _ S BO) as (SC & pb & PB & EB).
    exists (Pair I_shape_statement (idl_statement_text s ++ w) (map doc_pair (is_docs s) ++ [pt; pb])). split; [split; [reflexivity|]|].
    - intros b. unfold shape_statement. cbn [p_inner]. rewrite statement_docs. cbn [fold_result app]. unfold statement_step at 1. rewrite PT, TS. cbn [rbind].
      unfold statement_step. red in PB. rewrite PB. cbn [rbind]. rewrite applied_declared.
      destruct (p_rule pb) eqn:RB; try reflexivity; (unfold body_statement in PB; rewrite RB in PB; discriminate PB).
    - intros r NR. rewrite app_assoc. refine (ev_normal I_shape_statement _ _ r eq_refl _). cbn [snd smithy_rule PSeqs]. unfold idl_statement_text. rewrite <- !app_assoc.
      refine (ET _ _ [pb] r (named_app _ _ (proj1 (body_named _ _))) _).
      refine (sq_end _ _ _ _ [pb] (w ++ r) r (EB _ (blank_follow _ _ BW NW)) (ev_ws _ _ _ BW NR)).
  Qed.
  Lemma statement_no_use s r : ev false (icall I_use_statement) (idl_statement_text s ++ r) None.
  Proof.
    unfold idl_statement_text, heading_text. destruct (is_docs s) as [|d ds]; [|ev_compute]. destruct (is_traits s) as [|t ts]; [|ev_compute].
    exact (proj2 (body_named (is_name s) (is_body s)) r).
  Qed.

  (** ** Imports *)
  Definition import_of (i : shape_id) (p : ipair) : Prop := use_of (Shape i [] KUnresolved) p.
  Lemma states_import i : absolute i -> states (icall I_use_statement) (lit "use " ++ id_text i) (import_of i).
  Proof. intros A. rewrite <- sid_display_text. exact (states_use (Shape i [] KUnresolved) A). Qed.

  (** ** Metadata and control *)
  Definition entry_of_doc (q : irule) (e : idl_key * idl_node) (p : ipair) : Prop :=
    p_rule p = q /\ idl_kvp f64_parse p = Ok (idl_key_text (fst e), node_value (snd e)).
  Lemma states_metadata_n e : key_ok (fst e) -> node_ok (snd e) ->
    states (icall I_metadata_statement) (metadata_line e) (entry_of_doc I_metadata_statement e).
  Proof.
    intros K V. split; [split; [reflexivity|discriminate]|]. intros w BW NW.
    destruct (reads_node f64_parse _ V) as (SO & p & PV & RV & E).
    exists (Pair I_metadata_statement (metadata_line e ++ w) [key_pair (fst e); p]). split.
    - split; [reflexivity|]. apply kvp_read; assumption.
    - intros r NR. rewrite app_assoc. refine (ev_normal I_metadata_statement _ _ r eq_refl _). cbn [snd smithy_rule PSeqs]. unfold metadata_line. rewrite <- !app_assoc.
      change (lit "metadata " ++ idl_key_text (fst e) ++ lit " = " ++ node_text (snd e) ++ w ++ r)
        with (lit "metadata" ++ lit " " ++ idl_key_text (fst e) ++ lit " = " ++ node_text (snd e) ++ w ++ r).
      refine (sq_tok _ (lit "metadata") _ _ _ _ _). refine (sq _ _ _ _ [] _ _ r (ev_ws _ (lit " ") _ _ (solid_no_ws _ _ (key_text_solid _ K))) _); [repeat constructor|].
      refine (sq _ _ _ _ [_] (lit " = " ++ node_text (snd e) ++ w ++ r) [p] r (ev_key _ (lit " = " ++ node_text (snd e) ++ w ++ r) K eq_refl) _).
      change (lit " = " ++ node_text (snd e) ++ w ++ r) with (lit " " ++ lit "=" ++ lit " " ++ node_text (snd e) ++ w ++ r).
      refine (sq _ _ _ _ [] _ _ r (ev_ws _ (lit " ") _ _ _) _); [repeat constructor|split; [reflexivity|discriminate]|].
      refine (sq_tok _ (lit "=") _ _ _ _ _). refine (sq _ _ _ _ [] _ _ r (ev_ws _ (lit " ") _ _ (solid_no_ws _ _ SO)) _); [repeat constructor|].
      refine (sq_end _ _ _ _ [p] (w ++ r) r (E _ (blank_follow _ _ BW NW)) (ev_ws _ _ _ BW NR)).
  Qed.
  Lemma states_control_n e : key_ok (fst e) -> node_ok (snd e) ->
    states (icall I_control_statement) (control_line e) (entry_of_doc I_control_statement e).
  Proof.
    intros K V. split; [split; [reflexivity|discriminate]|]. intros w BW NW.
    destruct (reads_node f64_parse _ V) as (SO & p & PV & RV & E).
    exists (Pair I_control_statement (control_line e ++ w) [key_pair (fst e); p]). split.
    - split; [reflexivity|]. apply kvp_read; assumption.
    - intros r NR. rewrite app_assoc. refine (ev_normal I_control_statement _ _ r eq_refl _). cbn [snd smithy_rule PSeqs]. unfold control_line, node_entry_text. rewrite <- !app_assoc.
      refine (sq_tok _ (lit "$") _ _ _ _ _). refine (sq _ _ _ _ [] _ _ r (ev_no_ws _ _ (solid_no_ws _ _ (key_text_solid _ K))) _).
      refine (sq _ _ _ _ [_] (lit ": " ++ node_text (snd e) ++ w ++ r) [p] r (ev_key _ (lit ": " ++ node_text (snd e) ++ w ++ r) K eq_refl) _).
      change (lit ": " ++ node_text (snd e) ++ w ++ r) with (lit ":" ++ lit " " ++ node_text (snd e) ++ w ++ r).
      refine (sq _ _ _ _ [] _ _ r (ev_no_ws _ _ _) _); [split; [reflexivity|discriminate]|]. refine (sq_tok _ (lit ":") _ _ _ _ _).
      refine (sq _ _ _ _ [] _ _ r (ev_ws _ (lit " ") _ _ (solid_no_ws _ _ SO)) _); [repeat constructor|].
      refine (sq_end _ _ _ _ [p] (w ++ r) r (E _ (blank_follow _ _ BW NW)) (ev_ws _ _ _ BW NR)).
  Qed.
  Lemma entries_read (is_st : irule -> bool) q0 q t l ps : is_st q0 = true -> Forall2 (entry_of_doc q0) l ps ->
    idl_statements f64_parse is_st (Pair q t ps) = Ok (object_of (map (fun e => (idl_key_text (fst e), node_value (snd e))) l)).
  Proof.
    intros Q F. unfold idl_statements, object_of, hm_from_list. cbn [p_inner]. generalize (@nil (str * value)) as acc.
    induction F as [|e p l ps [E1 E2] F IH]; intros acc; [reflexivity|]. cbn [fold_result map fold_left fst snd]. rewrite E1, Q, E2. cbn [rbind fst snd]. apply IH.
  Qed.

  (** ** The section of shapes *)
  Definition import_builder (i : shape_id) : shape_builder := SB (Qualified i) [] BReference.
  Definition section_shapes (s : idl_section) : list shape_builder := map import_builder (id_uses s) ++ map declared_shape (id_statements s).
  Definition bd_all (b : builder) (l : list shape_builder) : builder := fold_left bd_insert l b.
  Lemma uses_run i b : absolute i -> bd_uses b (id_text i) = Ok (bd_insert b (import_builder i)).
  Proof. intros A. rewrite <- sid_display_text. unfold bd_uses, reference_new. rewrite absolute_from_str by assumption. reflexivity. Qed.
  Lemma imports_read l q t ps b : Forall absolute l -> Forall2 import_of l ps -> use_section (Pair q t ps) b = Ok (bd_all b (map import_builder l)).
  Proof.
    intros A F. unfold use_section. cbn [p_inner]. revert b. induction F as [|i p l ps (E & j & more & PI & RI & TI) F IH]; intros b; [reflexivity|].
    inversion A; subst. cbn [fold_result map bd_all fold_left]. rewrite E, PI. cbn [next rbind]. rewrite RI, TI. cbn [ts_id]. rewrite sid_display_text, uses_run by assumption.
    cbn [rbind]. apply IH. assumption.
  Qed.
  (** One statement of the section. *)
  Definition statements_step (b : builder) (q : ipair) : result builder :=
    match p_rule q with I_shape_statement => shape_statement f64_parse q b | I_EOI => Ok b | _ => unexpected "parse_shape_statements" end.
  Lemma shape_statements_step p b : shape_statements f64_parse p b = fold_result statements_step (p_inner p) b.
  Proof. reflexivity. Qed.
  (** ** Sections, whatever their statements are *)
  Section Statements.
    Context {X : Type} (text : X -> str) (step : X -> builder -> result builder).
    Definition step_of (x : X) (p : ipair) : Prop := forall b, statements_step b p = step x b.
    Hypothesis text_solid : forall x, solid (text x).
    Hypothesis text_no_use : forall x r, ev false (icall I_use_statement) (text x ++ r) None.
    Definition any_statement : pexp irule := PAlt (icall I_shape_statement) (icall I_apply_statement).
    Variables (ns : str) (us_ : list shape_id) (ss_ : list X).
    Definition any_lines : list str := (lit "namespace " ++ ns) :: map (fun i => lit "use " ++ id_text i) us_ ++ map text ss_.
    Definition stepped (b : builder) : result builder := fold_result (fun b x => step x b) ss_ b.
    Lemma steps_read l q t ps b : Forall2 step_of l ps -> shape_statements f64_parse (Pair q t ps) b = fold_result (fun b x => step x b) l b.
    Proof.
      intros F. rewrite shape_statements_step. cbn [p_inner]. revert b. induction F as [|x p l ps P F IH]; intros b; [reflexivity|].
      cbn [fold_result]. rewrite (P b). destruct (step x b); auto.
    Qed.
    Lemma section_matched : dotted_name ns -> Forall absolute us_ -> Forall (fun x => states any_statement (text x) (step_of x)) ss_ ->
      exists p, ev false (icall I_shape_section) (all_lines any_lines) (Some ([p], []))
      /\ p_rule p = I_shape_section
      /\ forall v, shape_section f64_parse v p = (b <- stepped (bd_all (Builder ns v [] []) (map import_builder us_)) ;; Ok (Some b)).
    Proof.
      intros DN AI SS.
    set (s1 := all_lines (map (fun i => lit "use " ++ id_text i) us_)). set (s2 := all_lines (map text ss_)).
    assert (L1 : laid (map (fun i => lit "use " ++ id_text i) us_) s1) by apply all_lines_laid. assert (L2 : laid (map text ss_) s2) by apply all_lines_laid.
    assert (TX : all_lines any_lines = (lit "namespace " ++ ns) ++ line_end ++ s1 ++ s2).
    { unfold any_lines. change (?x :: ?l) with ([x] ++ l). rewrite !all_lines_app. fold s1 s2. unfold all_lines at 1. cbn [map concat]. rewrite app_nil_r, <- !app_assoc. reflexivity. }
    destruct (states_namespace ns DN) as [SN TN]. destruct (TN line_end line_end_blank ltac:(discriminate)) as (pn & [RN PN] & EN).
    assert (SU : Forall (fun i => states (icall I_use_statement) (lit "use " ++ id_text i) (import_of i)) us_).
    { revert AI. apply Forall_impl. exact states_import. }
    assert (N2 : no_ws s2).
    { rewrite <- (app_nil_r s2). apply (laid_no_ws _ _ _ L2); [|exact I]. rewrite Forall_map. apply Forall_forall. intros x _. apply text_solid. }
    assert (N1 : no_ws (s1 ++ s2)).
    { apply (laid_no_ws _ _ _ L1); [|exact N2]. rewrite Forall_map. apply Forall_forall. intros x _. split; [reflexivity|discriminate]. }
    assert (NU : ev false (icall I_use_statement) s2 None).
    { unfold s2. destruct ss_ as [|x l]; [ev_compute|]. unfold all_lines. cbn [map concat]. rewrite <- !app_assoc. apply text_no_use. }
    assert (UU : exists us, ev false (POpt (icall I_use_section)) (s1 ++ s2) (Some (us, s2))
        /\ (us = [] /\ us_ = [] \/ exists ps, us = [Pair I_use_section s1 ps] /\ Forall2 import_of us_ ps)).
    { destruct us_ as [|x l] eqn:EI.
      - exists []. split; [|left; split; reflexivity]. apply ev_opt2. apply ev_rule_fail. cbn [fst snd smithy_rule sub_atomic].
        apply ev_seq_fail1. exact NU.
      - rewrite <- EI in *. destruct (statements_plus us_ (fun i => lit "use " ++ id_text i) (icall I_use_statement) import_of s1) as (ps & A & E); [rewrite EI; discriminate|exact L1|exact SU|].
        exists [Pair I_use_section s1 ps]. split; [|right; exists ps; split; [reflexivity|exact A]]. apply ev_opt1. apply (ev_normal I_use_section); [reflexivity|].
        exact (E s2 N2 NU). }
    destruct UU as (us & EU & CU).
    assert (SH : exists ss, ev false (POpt (icall I_shape_statements)) s2 (Some (ss, []))
        /\ (ss = [] /\ ss_ = [] \/ exists ps, ss = [Pair I_shape_statements s2 ps] /\ Forall2 step_of ss_ ps)).
    { destruct ss_ as [|x l] eqn:EO.
      - exists []. split; [|left; split; reflexivity]. ev_compute.
      - rewrite <- EO in *. destruct (statements_plus ss_ text any_statement step_of s2) as (ps & A & E); [rewrite EO; discriminate|exact L2|exact SS|].
        exists [Pair I_shape_statements s2 ps]. split; [|right; exists ps; split; [reflexivity|exact A]]. apply ev_opt1.
        assert (EX : ev false (snd (smithy_rule I_shape_statements)) (s2 ++ []) (Some (ps, []))) by (apply (E [] I); ev_compute).
        rewrite <- (app_nil_r s2) at 1. exact (ev_normal I_shape_statements s2 ps [] eq_refl EX). }
    destruct SH as (ss & ES & CS).
    exists (Pair I_shape_section (all_lines any_lines) ([pn] ++ us ++ ss)). split; [|split; [reflexivity|]].
    - rewrite <- (app_nil_r (all_lines any_lines)) at 1. apply (ev_normal I_shape_section); [reflexivity|]. rewrite app_nil_r, TX. apply ev_opt1.
      cbn [PSeqs]. refine (sq _ _ _ _ [pn] (s1 ++ s2) (us ++ ss) [] (EN _ N1) _). exact (sq _ _ _ _ us s2 ss [] EU ES).
    - intros v. unfold shape_section. cbn [p_inner]. cbn [app fold_result]. rewrite RN, PN. cbn [rbind].
      assert (FU : fold_result (fun (ob : option builder) q =>
          match p_rule q with
          | I_namespace_statement => b <- namespace_statement v q ;; Ok (Some b)
          | I_use_section => match ob with Some b => b' <- use_section q b ;; Ok (Some b') | None => Panic end
          | I_shape_statements => match ob with Some b => b' <- shape_statements f64_parse q b ;; Ok (Some b') | None => Panic end
          | _ => unexpected "parse_shape_section"
          end) us (Some (Builder ns v [] [])) = Ok (Some (bd_all (Builder ns v [] []) (map import_builder us_)))).
      { destruct CU as [[-> ->]|(ps & -> & A)]; [reflexivity|]. cbn [fold_result p_rule]. rewrite (imports_read us_ _ _ ps _ AI A). reflexivity. }
      rewrite fold_result_app, FU. cbn [rbind]. unfold stepped.
      destruct CS as [[-> ->]|(ps & -> & A)]; [reflexivity|]. cbn [fold_result p_rule]. rewrite (steps_read ss_ _ _ ps _ A). destruct (fold_result _ ss_ _); reflexivity.
    Qed.
    (** ** The document *)
    Variables (control metadata : list (idl_key * idl_node)) (with_section : bool).
    Definition meta_of : list (str * value) := object_of (map (fun e => (idl_key_text (fst e), node_value (snd e))) metadata).
    Definition asked : option str :=
      match hm_get str_eqb (lit "version") (object_of (map (fun e => (idl_key_text (fst e), node_value (snd e))) control)) with Some (VString v) => Some v | _ => None end.
    Definition asked_step : result version := match asked with Some v => version_from_str v | None => Ok V10 end.
    Definition any_text : str := all_lines (map control_line control ++ map metadata_line metadata ++ if with_section then any_lines else []).
    Definition any_result (v : version) : result model :=
      if with_section
      then b <- stepped (bd_all (Builder ns v [] []) (map import_builder us_)) ;; build (fold_left (fun b e => bd_metadata_insert b (fst e) (snd e)) meta_of b)
      else Ok (model_new V10).
    Definition section_good : Prop := dotted_name ns /\ Forall absolute us_ /\ Forall (fun x => states any_statement (text x) (step_of x)) ss_.
    Lemma rest_matched : (with_section = true -> section_good) -> let rest := all_lines (if with_section then any_lines else []) in
      no_ws rest /\ ev false (icall I_metadata_statement) rest None /\ ev false (icall I_control_statement) rest None
      /\ exists p, ev false (icall I_shape_section) rest (Some ([p], [])) /\ p_rule p = I_shape_section
         /\ forall v, shape_section f64_parse v p
            = if with_section then (b <- stepped (bd_all (Builder ns v [] []) (map import_builder us_)) ;; Ok (Some b)) else Ok None.
    Proof.
      destruct with_section; cbn zeta; intros O.
      - destruct (O eq_refl) as (A & B & C). destruct (section_matched A B C) as (p & E & R & V). unfold all_lines, any_lines in *. cbn [map concat] in *. rewrite <- !app_assoc in *.
        split; [split; [reflexivity|discriminate]|]. split; [ev_compute|]. split; [ev_compute|]. exists p. auto.
      - split; [exact I|]. split; [ev_compute|]. split; [ev_compute|]. exists (Pair I_shape_section [] []). split; [ev_compute|]. split; reflexivity.
    Qed.
    Lemma parse_any : entries_ok control -> entries_ok metadata -> (with_section = true -> section_good) ->
      parse_model f64_parse any_text = (v <- asked_step ;; any_result v).
    Proof.
      intros CO MO SG. assert (RM := rest_matched SG).
      set (rest := all_lines (if with_section then any_lines else [])) in *. destruct RM as (NR & ME & CE & ps & ES & RS & PS).
    set (sc := all_lines (map control_line control)). set (sm := all_lines (map metadata_line metadata)).
    assert (LC : laid (map control_line control) sc) by apply all_lines_laid. assert (LM : laid (map metadata_line metadata) sm) by apply all_lines_laid.
    destruct (SmithyDocFacts.star_section I_metadata_section (icall I_metadata_statement) metadata metadata_line (entry_of_doc I_metadata_statement) sm eq_refl LM) as (pms & FPM & EMS).
    { revert MO. apply Forall_impl. intros e [A B]. apply states_metadata_n; assumption. }
    destruct (SmithyDocFacts.star_section I_control_section (icall I_control_statement) control control_line (entry_of_doc I_control_statement) sc eq_refl LC) as (pcs & FPC & ECS).
    { revert CO. apply Forall_impl. intros e [A B]. apply states_control_n; assumption. }
    assert (TX : any_text = sc ++ sm ++ rest) by (unfold any_text; rewrite !all_lines_app; reflexivity).
    assert (NS : no_ws (sm ++ rest)).
    { apply (laid_no_ws _ _ _ LM); [|exact NR]. rewrite Forall_map. apply Forall_forall. intros e _. split; [reflexivity|discriminate]. }
    assert (NC : no_ws (sc ++ sm ++ rest)).
    { apply (laid_no_ws _ _ _ LC); [|exact NS]. rewrite Forall_map. apply Forall_forall. intros e _. split; [reflexivity|discriminate]. }
    assert (CE' : ev false (icall I_control_statement) (sm ++ rest) None).
    { unfold sm. destruct metadata as [|e md]; [exact CE|]. unfold all_lines. cbn [map concat]. unfold metadata_line at 1. rewrite <- !app_assoc. ev_compute. }
    set (whole_text := any_text) in *.
    set (top := Pair I_idl whole_text [Pair I_control_section sc pcs; Pair I_metadata_section sm pms; ps; Pair I_EOI [] []]).
    assert (EV : ev false (icall I_idl) whole_text (Some ([top], []))).
    { unfold top. rewrite <- (app_nil_r whole_text) at 1. apply (ev_normal I_idl); [reflexivity|]. cbn [snd smithy_rule PSeqs]. rewrite app_nil_r.
      change whole_text with ([] ++ whole_text). refine (sq_tok _ [] _ _ _ _ _). rewrite TX.
      refine (sq _ _ _ _ [] (sc ++ sm ++ rest) _ [] (ev_no_ws _ _ NC) _).
      refine (sq _ _ _ _ [_] (sm ++ rest) [_; _; _] [] (ECS _ NS CE') _). refine (sq _ _ _ _ [_] rest [_; _] [] (EMS _ NR ME) _).
      refine (sq _ _ _ _ [ps] [] [_] [] ES _). ev_compute. }
    unfold parse_model, parse_rule. destruct (smithy_total false I_idl whole_text (smithy_fuel whole_text) (le_n _)) as [r R]. rewrite R.
    assert (Z := evals_det _ _ _ _ _ _ (ev_run _ _ _ _ _ _ R) EV). subst r. cbn [next rbind fst]. unfold parse_idl, top. cbn [p_rule p_inner].
    unfold next_section at 1. cbn [next rbind p_rule]. unfold control_section. rewrite (entries_read _ I_control_statement _ _ _ _ eq_refl FPC). cbn [rbind fst snd].
    unfold asked_step, asked.
    assert (EQ : forall (k : result version -> result model) o,
      k match o with Some (VString v) => version_from_str v | _ => Ok V10 end
      = k match match o with Some (VString v) => Some v | _ => None end with Some v => version_from_str v | None => Ok V10 end).
    { intros k [[]|]; reflexivity. }
    rewrite (EQ (fun z => rbind z _)). clear EQ. match goal with |- rbind ?x _ = rbind ?x _ => destruct x as [v|e|]; [|reflexivity|reflexivity] end. cbn [rbind].
    unfold next_section at 1. cbn [next rbind p_rule]. unfold metadata_section. rewrite (entries_read _ I_metadata_statement _ _ _ _ eq_refl FPM). cbn [rbind fst snd].
    unfold next_section. cbn [next rbind]. rewrite RS, PS. cbn [rbind fst snd]. unfold any_result. destruct with_section; [|reflexivity]. destruct (stepped _); reflexivity.
  Qed.
  End Statements.

  (** ** Documents whose statements are shapes *)
  Definition insert_shape (s : idl_statement) (b : builder) : result builder := Ok (bd_insert b (declared_shape s)).
  Lemma statement_states s : idl_statement_ok s -> states any_statement (idl_statement_text s) (step_of insert_shape s).
  Proof.
    intros O. destruct (states_statement s O) as [S T]. split; [exact S|]. intros w BW NW. destruct (T w BW NW) as (p & [R P] & E). exists p. split.
    - intros b. unfold statements_step. rewrite R. apply P.
    - intros r NR. apply ev_alt1, E, NR.
  Qed.
  Lemma stepped_insert l : forall b, stepped insert_shape l b = Ok (bd_all b (map declared_shape l)).
  Proof. unfold stepped. induction l as [|x l IH]; intros b; [reflexivity|]. cbn [fold_result insert_shape map]. apply IH. Qed.
  Definition metadata_of_doc (d : idl_document) := object_of (map (fun e => (idl_key_text (fst e), node_value (snd e))) (id_metadata d)).
  Definition version_step (d : idl_document) : result version :=
    match version_asked f64_parse d with Some v => version_from_str v | None => Ok V10 end.
  Definition document_result (d : idl_document) (v : version) : result model :=
    match id_section d with
    | None => Ok (model_new V10)
    | Some s => build (fold_left (fun b e => bd_metadata_insert b (fst e) (snd e)) (metadata_of_doc d) (bd_all (Builder (id_namespace s) v [] []) (section_shapes s)))
    end.
  Lemma parse_document d : document_ok d -> parse_model f64_parse (document_text d) = (v <- version_step d ;; document_result d v).
  Proof.
    intros (CO & MO & SO). destruct (id_section d) as [s|] eqn:E.
    - destruct SO as (DN & AI & OW).
      assert (P := parse_any idl_statement_text insert_shape statement_solid statement_no_use (id_namespace s) (id_uses s) (id_statements s) (id_control d) (id_metadata d) true CO MO).
      unfold document_text. rewrite E. unfold any_text in P. change (any_lines _ _ _ _) with (section_lines s) in P. rewrite P.
      2: { intros _. split; [exact DN|]. split; [exact AI|]. revert OW. apply Forall_impl. exact statement_states. }
      unfold asked_step. change (asked (id_control d)) with (version_asked f64_parse d). fold (version_step d). destruct (version_step d) as [v|e|]; [|reflexivity|reflexivity]. cbn [rbind].
      unfold any_result. rewrite stepped_insert. cbn [rbind]. unfold document_result. rewrite E. unfold section_shapes, bd_all. rewrite fold_left_app. reflexivity.
    - assert (P := parse_any idl_statement_text insert_shape statement_solid statement_no_use [] [] [] (id_control d) (id_metadata d) false CO MO).
      unfold document_text. rewrite E. unfold any_text in P. rewrite P by discriminate. unfold document_result, any_result. rewrite E. reflexivity.
  Qed.

  (** ** As calls *)
  Lemma run_app a c : forall b, builder_run b (a ++ c) = (b' <- builder_run b a ;; builder_run b' c).
  Proof. induction a as [|o a IH]; intros b; cbn [app builder_run rbind]; [reflexivity|]. destruct (builder_step b o); cbn [rbind]; auto. Qed.
  Lemma run_uses l : Forall absolute l -> forall b, builder_run b (map (fun i => BoUses (id_text i)) l) = Ok (bd_all b (map import_builder l)).
  Proof. induction 1 as [|i l A F IH]; intros b; [reflexivity|]. cbn [map builder_run builder_step]. rewrite (uses_run _ _ A). cbn [rbind]. apply IH. Qed.
  Lemma run_shapes l : forall b, builder_run b (map (fun x => BoShape (declared_shape x)) l) = Ok (bd_all b (map declared_shape l)).
  Proof. induction l as [|x l IH]; intros b; [reflexivity|]. cbn [map builder_run builder_step rbind]. apply IH. Qed.
  Lemma run_metadata l : forall b, builder_run b (map (fun e => BoMetadata (idl_key_text (fst e)) (node_value (snd e))) l)
    = Ok (fold_left (fun b e => bd_metadata_insert b (fst e) (snd e)) (map (fun e => (idl_key_text (fst e), node_value (snd e))) l) b).
  Proof. induction l as [|x l IH]; intros b; [reflexivity|]. cbn [map builder_run builder_step rbind fold_left fst snd]. apply IH. Qed.
  Lemma bd_all_fields l : forall b, bd_namespace (bd_all b l) = bd_namespace b /\ bd_version (bd_all b l) = bd_version b /\ bd_metadata (bd_all b l) = bd_metadata b.
  Proof. induction l as [|x l IH]; intros b; [auto|]. cbn [bd_all fold_left]. destruct (IH (bd_insert b x)) as (A & B & C). unfold bd_all in *. rewrite A, B, C. auto. Qed.
  Lemma metadata_once l b : bd_metadata b = [] ->
    fold_left (fun b (e : str * value) => bd_metadata_insert b (fst e) (snd e)) (object_of l) b = fold_left (fun b e => bd_metadata_insert b (fst e) (snd e)) l b.
  Proof.
    intros E. rewrite !SmithyDocFacts.bd_all_metadata, E. f_equal. fold (hm_from_list str_eqb l). fold (object_of l).
    rewrite (insert_all _ str_eqb_equiv); [reflexivity|]. apply BuilderFacts.from_list_distinct, str_eqb_equiv.
  Qed.
  Lemma section_run d s : section_ok s -> forall v, builder_run (Builder (id_namespace s) v [] []) (section_calls f64_parse d s)
    = Ok (fold_left (fun b e => bd_metadata_insert b (fst e) (snd e)) (metadata_of_doc d) (bd_all (Builder (id_namespace s) v [] []) (section_shapes s))).
  Proof.
    intros (_ & A & _) v. unfold section_calls. rewrite !run_app, (run_uses _ A). cbn [rbind]. rewrite run_app, run_shapes. cbn [rbind]. rewrite run_metadata.
    unfold metadata_of_doc. rewrite metadata_once; [|apply bd_all_fields]. unfold section_shapes. unfold bd_all. rewrite fold_left_app. reflexivity.
  Qed.
  Lemma version_result d : (version_known f64_parse d -> version_step d = Ok V10)
    /\ forall v, version_asked f64_parse d = Some v -> v <> lit "1" -> v <> lit "1.0" -> version_step d = Err (EInvalidVersionNumber (Some v)).
  Proof.
    unfold version_step, version_known. split.
    - intros K. destruct (version_asked f64_parse d) as [v|]; [|reflexivity]. destruct (K v eq_refl) as [-> | ->]; reflexivity.
    - intros v -> A B. unfold version_from_str. apply str_eqb_neq in A, B. rewrite A, B. reflexivity.
  Qed.
End Doc.
