(** Values, names and traits of documents: their texts are read as what they stand for. *)
From Verif.Model Require Import SelectorParse SmithyParse SmithyWrite.
From Verif.Spec Require Import IdlSpec.
From Verif.Proofs Require Import BaseFacts HashMapFacts IdentityFacts ValueFacts PegFacts SmithyGrammarFacts SmithyValueFacts SmithyTraitFacts SmithyShapeFacts LayoutFacts BlockFacts.
From Verif.Proofs Require SelectorFacts SelectorGrammarFacts.

Lemma node_ind' (P : idl_node -> Prop) :
  P INull -> (forall b, P (IBool b)) -> (forall n, P (IInt n)) -> (forall t, P (IDecimal t)) -> (forall t, P (IText t)) -> (forall g t, P (IBlock g t)) ->
  (forall r, P (IRef r)) -> (forall l, Forall P l -> P (IArray l)) -> (forall l, Forall (fun e => P (snd e)) l -> P (IObject l)) ->
  forall v, P v.
Proof.
  intros H1 H2 H3 H4 H5 HB H6 H7 H8. fix IH 1. intros [|b|n|t|t|g t|r|l|l].
  - exact H1.
  - apply H2.
  - apply H3.
  - apply H4.
  - apply H5.
  - apply HB.
  - apply H6.
  - apply H7. induction l as [|x l IHl]; constructor; [apply IH|exact IHl].
  - apply H8. induction l as [|[k v] l IHl]; constructor; [apply IH|exact IHl].
Qed.

(** ** Names *)
Lemma ref_names r : ref_ok r -> names (ref_text r) (declared_name r).
Proof.
  destruct r as [n|id]; cbn [ref_ok ref_text declared_name]; intros O; [apply names_local, O|].
  rewrite <- sid_display_text. apply names_qualified, O.
Qed.
Lemma ref_named r : ref_ok r -> named (ref_text r).
Proof.
  destruct r as [n|id]; cbn [ref_ok ref_text]; intros O; [apply short_named, O|].
  destruct (absolute_text id O) as (ids & NE & F & _ & E). rewrite <- sid_display_text, E. destruct ids as [|x l]; [congruence|].
  inversion F; subst. rewrite SelectorGrammarFacts.join_dotted, <- app_assoc. apply named_app, short_named. assumption.
Qed.
Lemma named_first t r : named t -> ev false (icall I_node_array) (t ++ r) None
  /\ ev false (icall I_node_object) (t ++ r) None /\ ev false (icall I_number) (t ++ r) None.
Proof.
  destruct t as [|c u]; [intros []|]. cbn [app named]. intros A.
  repeat split; exists 20; (destruct A as [A| ->]; [|reflexivity]); all_chars c; try discriminate A; reflexivity.
Qed.

(** ** Keys *)
Definition key_pair (k : idl_key) : ipair :=
  match k with Plain n => Pair I_identifier n [] | Quoted t => Pair I_quoted_text (quoted t) [Pair I_quoted_chars t []] end.
Lemma ev_key k r : key_ok k -> follow r -> ev false (icall I_node_object_key) (idl_key_text k ++ r) (Some ([key_pair k], r)).
Proof.
  destruct k as [n|t]; cbn [key_ok idl_key_text key_pair]; intros O F.
  - apply ev_object_key; [exact O|apply follow_stop, F].
  - apply (ev_silent I_node_object_key); [reflexivity|]. cbn [snd smithy_rule]. apply ev_alt1. exact (ev_text false t r O).
Qed.
Lemma key_text_solid k : key_ok k -> solid (idl_key_text k).
Proof. destruct k as [n|t]; cbn [key_ok idl_key_text]; intros O; [apply short_solid, O|apply quoted_solid]. Qed.

Section Facts.
  Variable f64_parse : str -> Z.
  Notation idl_value := (idl_value f64_parse).
  Notation reads := (reads f64_parse).
  Notation node_value := (node_value f64_parse).
  Notation a_trait := (a_trait f64_parse).

  (** ** Values *)
  Lemma reads_null : reads (lit "null") VNone.
  Proof.
    split; [split; [reflexivity|discriminate]|]. exists (Pair I_node_value (lit "null") [Pair I_kw_null (lit "null") []]).
    split; [reflexivity|]. split; [reflexivity|]. intros r F. refine (ev_normal I_node_value (lit "null") _ r eq_refl _). cbn [snd smithy_rule PAlts].
    do 3 (apply ev_alt2; [ev_compute|]). apply ev_alt1. apply (ev_silent I_node_keywords); [reflexivity|]. cbn [snd smithy_rule PAlts].
    do 2 (apply ev_alt2; [ev_compute|]). exact (ev_token I_kw_null _ r eq_refl).
  Qed.
  Lemma reads_decimal t : decimal t -> reads t (VNumber (NFloat (f64_parse t))).
  Proof.
    intros D. assert (D' := D). destruct D as (sign & w & fr & T & S & W & _). apply reads_number.
    - exists sign, w, ("."%char :: fr). rewrite <- app_assoc. auto.
    - apply ev_decimal, D'.
    - unfold idl_number. assert (X : existsb (Ascii.eqb ".") t = true) by (rewrite T, !existsb_app; cbn [existsb]; rewrite !orb_true_r; reflexivity).
      rewrite X. reflexivity.
  Qed.
  Lemma follow_no_quote r : follow r -> hd_error r <> Some dquote.
  Proof. intros F E. destruct r as [|c r]; [discriminate|]. injection E as ->. discriminate F. Qed.
  Lemma reads_text_body t : text_body t -> reads (quoted t) (VString t).
  Proof.
    intros T. split; [apply quoted_solid|]. eexists (Pair I_node_value (quoted t) _). split; [reflexivity|]. split; [|intros r F].
    2:{ refine (ev_normal I_node_value _ _ r eq_refl _). cbn [snd smithy_rule PAlts].
        do 5 (apply ev_alt2; [ev_compute|]). apply ev_alt2; [apply ev_block_fails; [assumption|apply follow_no_quote, F]|]. exact (ev_text false t r T). }
    reflexivity.
  Qed.
  Lemma reads_block g t : layout g -> block_body t -> after_layout t -> reads (block_quoted g t) (VString t).
  Proof.
    intros G T A. split; [split; [reflexivity|discriminate]|]. eexists (Pair I_node_value _ _). split; [reflexivity|]. split; [|intros r F].
    2:{ refine (ev_normal I_node_value _ _ r eq_refl _). cbn [snd smithy_rule PAlts].
        do 5 (apply ev_alt2; [ev_compute|]). apply ev_alt1. apply ev_block; [exact G|exact T|]. apply after_layout_head, A. }
    reflexivity.
  Qed.
  Lemma reads_ref r : value_ref_ok r -> reads (ref_text r) (VString (ref_text r)).
  Proof.
    intros [O K]. destruct (ref_names r O) as (SO & _ & E). split; [exact SO|].
    exists (Pair I_node_value (ref_text r) [Pair I_shape_id (ref_text r) []]). split; [reflexivity|]. split; [reflexivity|].
    intros s F. refine (ev_normal I_node_value _ _ s eq_refl _). cbn [snd smithy_rule PAlts].
    destruct (named_first _ s (ref_named _ O)) as (A & B & C). do 3 (apply ev_alt2; [assumption|]).
    apply ev_alt2; [|apply ev_alt1, E; left; exact F].
    apply ev_rule_fail. cbn [fst snd smithy_rule PAlts sub_atomic].
    assert (T : forall q x, smithy_rule q = (Normal, PStr x) -> strip_prefix x (ref_text r ++ s) = None -> ev false (icall q) (ref_text r ++ s) None).
    { intros q x Q P. apply ev_rule_fail. rewrite Q. cbn [snd]. apply ev_str_fail, P. }
    apply ev_alt2; [apply (T I_kw_true (lit "true") eq_refl)|apply ev_alt2; [apply (T I_kw_false (lit "false") eq_refl)|apply (T I_kw_null (lit "null") eq_refl)]];
      (apply keyword_free; [intros x; apply (K x)|reflexivity|discriminate|exact F]).
  Qed.

  (** Entries, with what their values are read as. *)
  Notation entry := (idl_key * (str * value))%type.
  Definition nentry_ok (x : entry) : Prop := key_ok (fst x) /\ reads (fst (snd x)) (snd (snd x)).
  Definition nentry_text (x : entry) : str := idl_key_text (fst x) ++ lit ": " ++ fst (snd x).
  Definition nentry_value (x : entry) : str * value := (idl_key_text (fst x), snd (snd x)).
  Definition nentry_pair (q : irule) (x : entry) (p : ipair) : Prop :=
    exists v, p = Pair q (nentry_text x) [key_pair (fst x); v] /\ p_rule v = I_node_value /\ idl_value v = Ok (snd (snd x)).
  Lemma nentry_solid x : nentry_ok x -> solid (nentry_text x).
  Proof. intros [K _]. apply solid_app, key_text_solid, K. Qed.
  Lemma nentries q l : snd (smithy_rule q) = snd (smithy_rule I_node_object_kvp) -> fst (smithy_rule q) = Normal ->
    Forall nentry_ok l -> Forall (fun x => solid (nentry_text x) /\ exists p, nentry_pair q x p
      /\ forall r, follow r -> ev false (icall q) (nentry_text x ++ r) (Some ([p], r))) l.
  Proof.
    intros E1 E2 A. apply (Forall_impl _ (P := nentry_ok)); [|exact A]. intros x O. split; [apply nentry_solid, O|].
    destruct O as [K (SO & p & P & V & E)]. eexists. split; [exists p; split; [reflexivity|auto]|]. intros r F.
    refine (ev_normal q _ _ r E2 _). rewrite E1. cbn [snd smithy_rule PSeqs]. unfold nentry_text. rewrite <- !app_assoc.
    change [key_pair (fst x); p] with ([key_pair (fst x)] ++ [] ++ [p]).
    refine (sq _ _ _ _ _ _ _ _ (ev_key _ (lit ": " ++ fst (snd x) ++ r) K eq_refl) _).
    refine (sq _ _ _ _ [] (lit ": " ++ fst (snd x) ++ r) [p] r (ev_no_ws _ _ _) _); [split; [reflexivity|discriminate]|].
    change (lit ": " ++ fst (snd x) ++ r) with (lit ":" ++ lit " " ++ fst (snd x) ++ r).
    refine (sq_tok _ (lit ":") _ _ _ _ _). refine (sq _ _ _ _ [] (fst (snd x) ++ r) [p] r (ev_ws _ (lit " ") _ _ _) (E r F)).
    - repeat constructor.
    - apply solid_no_ws, SO.
  Qed.
  Lemma kvp_read q t k v w : p_rule v = I_node_value -> idl_value v = Ok w -> idl_kvp f64_parse (Pair q t [key_pair k; v]) = Ok (idl_key_text k, w).
  Proof.
    intros R V. unfold idl_kvp. destruct v as [rv tv iv]. cbn [p_rule] in R. subst rv.
    destruct k; cbn [key_pair p_inner fold_result kvp_step rbind snd fst]; rewrite V; reflexivity.
  Qed.
  Lemma object_read_n t inner l : Forall2 (nentry_pair I_node_object_kvp) l inner ->
    idl_object f64_parse (Pair I_node_object t inner) = Ok (object_of (map nentry_value l)).
  Proof.
    intros F. unfold idl_object, object_of, hm_from_list. cbn [p_inner]. generalize (@nil (str * value)) as acc.
    induction F as [|x p l inner (v & -> & R & V) F IH]; intros acc; [reflexivity|]. cbn [fold_result p_rule].
    rewrite (kvp_read _ _ _ _ _ R V). cbn [rbind fst snd]. rewrite IH. reflexivity.
  Qed.
  Lemma object_inside_n l : Forall nentry_ok l -> exists inner, Forall2 (nentry_pair I_node_object_kvp) l inner
    /\ forall sep, blank sep -> sep <> [] -> forall r,
      ev false (icall I_node_object) ((lit "{" ++ join sep (map nentry_text l) ++ lit "}") ++ r)
        (Some ([Pair I_node_object (lit "{" ++ join sep (map nentry_text l) ++ lit "}") inner], r)).
  Proof.
    intros A. assert (B := nentries I_node_object_kvp l eq_refl eq_refl A).
    destruct (reads_items _ _ _ _ B) as (ps & F & I & L). exists ps. split; [exact F|].
    intros sep BS NS r.
    assert (L1 : length (map nentry_text l) = length (map (fun p : ipair => [p]) ps)) by (rewrite !map_length; lia).
    refine (ev_normal I_node_object _ _ r eq_refl _). cbn [snd smithy_rule PSeqs]. rewrite <- !app_assoc.
    refine (sq_tok _ (lit "{") _ _ ps r _). refine (sq _ _ _ _ [] (join sep (map nentry_text l) ++ [] ++ lit "}" ++ r) ps r _ _).
    - apply ev_no_ws. apply open_no_ws; [|split; [reflexivity|discriminate]]. apply (Forall_impl _ nentry_solid), A.
    - refine (sq_end _ _ _ _ ps (lit "}" ++ r) r _ (ev_str _ _ _ _)).
      assert (R := star_items (icall I_node_object_kvp) sep _ [] (lit "}" ++ r) BS NS I (Forall_nil _)). rewrite (combine_fst _ _ L1), (combine_snd _ _ L1), concat_single in R.
      apply R; [reflexivity|split; [reflexivity|discriminate]|reflexivity|ev_compute].
  Qed.
  Definition entry_of (e : idl_key * idl_node) : entry := (fst e, (node_text (snd e), node_value (snd e))).
  Lemma entry_of_texts l : map nentry_text (map entry_of l) = map node_entry_text l.
  Proof. rewrite map_map. reflexivity. Qed.
  Lemma entry_of_values l : map nentry_value (map entry_of l) = map (fun e => (idl_key_text (fst e), node_value (snd e))) l.
  Proof. rewrite map_map. reflexivity. Qed.
  Lemma object_node_text l : node_text (IObject l) = lit "{" ++ join (lit ", ") (map node_entry_text l) ++ lit "}".
  Proof. reflexivity. Qed.
  Lemma reads_node v : node_ok v -> reads (node_text v) (node_value v).
  Proof.
    induction v as [|b|n|t|t|g t|r|l IH|l IH] using node_ind'; intros O; inversion O as [|b' B|n' N|t' T|t' T|g' t' G T H|r' R|l' F|l' F]; subst.
    - apply reads_null.
    - change (reads (bool_str b) (VBoolean b)). apply reads_bool.
    - apply reads_int. assumption.
    - apply reads_decimal, T.
    - apply reads_text_body, T.
    - apply reads_block; assumption.
    - apply reads_ref, R.
    - cbn [node_text IdlSpec.node_value]. assert (R := reads_array f64_parse (map (fun v => (node_text v, node_value v)) l)). rewrite !map_map in R. apply R.
      rewrite Forall_map. apply Forall_forall. rewrite Forall_forall in IH, F. cbn [fst snd]. auto.
    - rewrite object_node_text. cbn [IdlSpec.node_value]. rewrite <- entry_of_values, <- entry_of_texts.
      assert (A : Forall nentry_ok (map entry_of l)).
      { rewrite Forall_map. apply Forall_forall. rewrite Forall_forall in IH, F. intros e I. destruct (F e I) as [K V]. split; [exact K|]. exact (IH e I V). }
      split; [split; [reflexivity|discriminate]|]. destruct (object_inside_n _ A) as (inner & F2 & E).
      eexists (Pair I_node_value _ [Pair I_node_object _ inner]). split; [reflexivity|]. split; [|intros r FR].
      2:{ refine (ev_normal I_node_value _ _ r eq_refl _). cbn [snd smithy_rule PAlts]. apply ev_alt2; [ev_compute|]. apply ev_alt1.
          apply E; apply comma_blank. }
      rewrite idl_value_object, (object_read_n _ inner _ F2). reflexivity.
  Qed.
  Lemma entries_of_ok l : entries_ok l -> Forall nentry_ok (map entry_of l).
  Proof.
    intros F. rewrite Forall_map. apply (Forall_impl _ (P := fun e => key_ok (fst e) /\ node_ok (snd e))); [|exact F].
    intros e [K V]. split; [exact K|]. apply reads_node, V.
  Qed.

  (** ** Traits *)
  Lemma no_structure_n v r : node_ok v -> ev false (icall I_trait_structure) (node_text v ++ ")"%char :: r) None.
  Proof.
    intros W. apply ev_rule_fail. cbn [fst snd smithy_rule sub_atomic]. apply ev_seq_fail1. apply ev_rule_fail. cbn [fst snd smithy_rule sub_atomic PSeqs].
    assert (CL : ev false (PSeq iws (PSeq (itok ":") (PSeq iws (icall I_node_value)))) (")"%char :: r) None).
    { refine (sq_fail _ _ _ _ [] _ (ev_no_ws _ _ _) _); [split; [reflexivity|discriminate]|]. apply ev_seq_fail1. ev_compute. }
    assert (NM : forall n, short_identifier n -> ev false (PSeq (icall I_node_object_key) (PSeq iws (PSeq (itok ":") (PSeq iws (icall I_node_value))))) (n ++ ")"%char :: r) None).
    { intros n S. exact (sq_fail _ _ _ _ _ _ (ev_object_key n _ S (follow_stop (")"%char :: r) eq_refl)) CL). }
    inversion W as [|b B|n N|t T|t T|g t G T H|rf [R K]|l F|l F]; subst; cbn [node_text].
    - apply NM, short_lit; reflexivity.
    - destruct b; apply NM, short_lit; reflexivity.
    - apply ev_seq_fail1. destruct (SelectorFacts.int_text n) as (sign & w & E & S & WH). rewrite E.
      destruct S as [-> | ->]; [|ev_compute]. destruct WH as [-> | (c & x & -> & C & _)]; [ev_compute|].
      cbn [app]. exists 20. all_chars c; try discriminate C; reflexivity.
    - apply ev_seq_fail1. destruct T as (sign & w & fr & E & S & WH & _). rewrite E.
      destruct S as [-> | ->]; [|ev_compute]. destruct WH as [-> | (c & x & -> & C & _)]; [ev_compute|].
      cbn [app]. exists 20. all_chars c; try discriminate C; reflexivity.
    - exact (sq_fail _ _ _ _ _ _ (ev_key (Quoted t) (")"%char :: r) T eq_refl) CL).
    - set (u := g ++ t ++ three_quotes).
      assert (K : ev false (icall I_node_object_key) ((three_quotes ++ u) ++ ")"%char :: r) (Some ([key_pair (Quoted [])], dquote :: u ++ ")"%char :: r))).
      { apply (ev_silent I_node_object_key); [reflexivity|]. cbn [snd smithy_rule]. apply ev_alt1. exact (ev_text false [] (dquote :: u ++ ")"%char :: r) text_nil). }
      refine (sq_fail _ _ _ _ _ _ K _). refine (sq_fail _ _ _ _ [] _ (ev_no_ws _ _ _) _); [split; [reflexivity|discriminate]|]. apply ev_seq_fail1. ev_compute.
    - destruct rf as [n|id]; [apply NM, R|]. cbn [ref_text ref_ok] in *. destruct (absolute_text id R) as (ids & NE & FI & S & E).
      rewrite <- sid_display_text, E. destruct ids as [|x ids]; [congruence|]. inversion FI as [|x0 l0 X FI']; subst.
      rewrite SelectorGrammarFacts.join_dotted, <- !app_assoc. destruct ids as [|y ids].
      + cbn [SelectorGrammarFacts.dotted map concat app].
        refine (sq_fail _ _ _ _ _ _ (ev_object_key x _ X (hash_stop _)) _). refine (sq_fail _ _ _ _ [] _ (ev_no_ws _ _ _) _); [split; [reflexivity|discriminate]|].
        apply ev_seq_fail1. ev_compute.
      + unfold SelectorGrammarFacts.dotted. cbn [map concat]. rewrite <- !app_assoc. cbn [app].
        refine (sq_fail _ _ _ _ _ _ (ev_object_key x _ X (dot_stop _)) _). refine (sq_fail _ _ _ _ [] _ (ev_no_ws _ _ _) _); [split; [reflexivity|discriminate]|].
        apply ev_seq_fail1. ev_compute.
    - apply ev_seq_fail1. ev_compute.
    - apply ev_seq_fail1. ev_compute.
  Qed.
  Lemma argument_read q k p v : p_rule p = I_node_value -> idl_value p = Ok v -> forall t,
    trait_kvp f64_parse (Pair q t [key_pair k; p]) = Ok (argument_name k, v).
  Proof.
    intros P V t. unfold trait_kvp. destruct k; cbn [p_inner fold_result key_pair]; unfold trait_kvp_step; cbn [p_rule p_text p_inner fold_result rbind fst snd argument_name];
      rewrite P, V; reflexivity.
  Qed.
  Lemma ev_frame t ps : (forall r, ev false (icall I_trait_body_value) (t ++ ")"%char :: r) (Some (ps, ")"%char :: r))) -> solid t ->
    forall r, ev false (icall I_trait_body) ((lit "(" ++ t ++ lit ")") ++ r) (Some (ps, r)).
  Proof.
    intros T SO r. assert (NS : forall r, no_ws (")"%char :: r)) by (intros r0; split; [reflexivity|discriminate]).
    apply (ev_silent I_trait_body); [reflexivity|]. cbn [snd smithy_rule PSeqs]. rewrite <- !app_assoc.
    refine (sq_tok _ (lit "(") _ _ ps r _). refine (sq _ _ _ _ [] _ ps r (ev_no_ws _ _ (solid_no_ws _ _ SO)) _).
    refine (sq_end _ _ _ _ ps (lit ")" ++ r) r _ (ev_str _ _ _ _)).
    rewrite <- (app_nil_r ps). refine (star_cons _ _ _ ps (lit ")" ++ r) [] _ (sq_end _ _ _ _ ps (lit ")" ++ r) _ (T _) (ev_no_ws _ _ _)) _);
      [apply NS|]. apply ev_star_nil, ev_seq_fail1. ev_compute.
  Qed.
  (** What stands after the name. *)
  Lemma ev_arguments a : arguments_ok a -> a <> NoArguments -> exists ps,
    (forall r, ev false (icall I_trait_body) (arguments_text a ++ r) (Some (ps, r)))
    /\ forall x n t, shape_name_from_str n = Ok x -> a_trait (Pair I_a_trait t (Pair I_shape_id n [] :: ps)) = Ok (TB x (Some (arguments_value f64_parse a))).
  Proof.
    intros O NA. destruct a as [|v|l]; [congruence| |]; cbn [arguments_text arguments_value arguments_ok] in *.
    - destruct (reads_node v O) as (SO & p & P & V & E). exists [p]. split.
      + apply ev_frame; [|exact SO]. intros r. apply (ev_silent I_trait_body_value); [reflexivity|]. cbn [snd smithy_rule].
        apply ev_alt2; [apply no_structure_n; assumption|]. apply E. reflexivity.
      + intros x n t N. unfold SmithyParse.a_trait. cbn [p_inner fold_result a_trait_step rbind p_rule p_text]. rewrite P, V. cbn [rbind].
        unfold trait_new. rewrite N. reflexivity.
    - rewrite <- entry_of_texts. destruct l as [|e0 l0].
      + exists []. split; [intros r; ev_compute|]. intros x n t E. unfold SmithyParse.a_trait. cbn [p_inner fold_result a_trait_step rbind p_rule p_text].
        unfold trait_new. rewrite E. reflexivity.
      + assert (A := entries_of_ok _ O). set (l := e0 :: l0) in *. assert (EV : map (fun e => (argument_name (fst e), node_value (snd e))) l
            = map (fun x : entry => (argument_name (fst x), snd (snd x))) (map entry_of l)) by (rewrite map_map; reflexivity). rewrite EV. clear EV.
        assert (NE : map entry_of l <> []) by discriminate. clearbody l. clear O NA e0 l0. revert A NE. generalize (map entry_of l) as en. clear l. intros en A NE.
        assert (B := nentries I_trait_structure_kvp _ eq_refl eq_refl A). destruct en as [|x en']; [congruence|]. clear NE.
        inversion B as [|x0 l0 [SX (p & PE & PX)] B']; subst x0 l0.
        destruct (star_ws_list en' nentry_text (icall I_trait_structure_kvp) _ comma_sep (proj1 comma_blank) (proj2 comma_blank) B') as (ps & FP & PS).
        exists (p :: ps). split.
        * cbn [map]. rewrite join_prefixed. apply ev_frame; [|apply solid_app, SX]. intros r.
          apply (ev_silent I_trait_body_value); [reflexivity|]. cbn [snd smithy_rule]. apply ev_alt1.
          apply (ev_silent I_trait_structure); [reflexivity|]. cbn [snd smithy_rule]. rewrite <- app_assoc.
          refine (sq _ _ _ _ [p] _ ps _ (PX _ _) (PS _ _ _)); [|reflexivity|].
          -- destruct en'; [reflexivity|]. unfold prefixed. cbn [map concat]. rewrite <- !app_assoc. apply blank_follow; apply comma_blank.
          -- refine (sq_fail _ _ _ _ [] _ (ev_no_ws _ _ _) _); [split; [reflexivity|discriminate]|]. ev_compute.
        * intros y n t E. unfold SmithyParse.a_trait. cbn [p_inner].
          change (fold_result (a_trait_step f64_parse) (Pair I_shape_id n [] :: p :: ps) (None, None, []))
            with (fold_result (a_trait_step f64_parse) (p :: ps) (Some n, None, [])).
          assert (K : forall l q, Forall2 (nentry_pair I_trait_structure_kvp) l q -> forall acc,
                    fold_result (a_trait_step f64_parse) q (Some n, None, acc)
                    = Ok (Some n, None, fold_left (fun m kv => hm_insert str_eqb (fst kv) (snd kv) m) (map (fun x : entry => (argument_name (fst x), snd (snd x))) l) acc)).
          { clear. induction 1 as [|x p l q (v & -> & R & V) F IH]; intros acc; [reflexivity|]. cbn [fold_result a_trait_step p_rule].
            rewrite (argument_read _ _ _ _ R V). cbn [rbind fst snd]. rewrite IH. reflexivity. }
          rewrite (K _ _ (Forall2_cons _ _ PE FP)). cbn [rbind]. unfold object_of, hm_from_list. cbn [map fold_left fst snd].
          assert (NZ : forall l acc, acc <> [] -> fold_left (fun m (kv : str * value) => hm_insert str_eqb (fst kv) (snd kv) m) l acc <> []).
          { clear. induction l as [|[k v] l IH]; intros acc Z; [exact Z|]. cbn [fold_left fst snd]. apply IH. destruct acc as [|[k' v'] acc]; [congruence|].
            cbn [hm_insert]. destruct (str_eqb _ _); discriminate. }
          match goal with |- context [fold_left ?f ?l ?a] => assert (Z := NZ l a ltac:(discriminate)); destruct (fold_left f l a) as [|z zs]; [congruence|] end.
          unfold trait_new. rewrite E. reflexivity.
  Qed.
  Definition trait_parsed (t : idl_trait) (p : ipair) : Prop := p_rule p = I_a_trait /\ a_trait p = Ok (declared_trait f64_parse t).
  Lemma gives_trait_n t : trait_ok t -> gives (icall I_a_trait) (idl_trait_text t) (trait_parsed t).
  Proof.
    intros [R A]. destruct (ref_names _ R) as (SO & N & E). split; [split; [reflexivity|discriminate]|]. unfold trait_parsed, idl_trait_text, declared_trait.
    destruct t as [r a]. cbn [it_name it_arguments] in *.
    assert (D : a = NoArguments \/ a <> NoArguments) by (destruct a; [left; reflexivity|right; discriminate..]). destruct D as [-> |D].
    - eexists (Pair I_a_trait _ [Pair I_shape_id (ref_text r) []]). split; [split; [reflexivity|]|].
      + unfold SmithyParse.a_trait. cbn [p_inner fold_result a_trait_step rbind p_rule p_text]. unfold trait_new. rewrite N. reflexivity.
      + intros s F. refine (ev_normal I_a_trait _ _ s eq_refl _). cbn [snd smithy_rule PSeqs arguments_text]. rewrite <- !app_assoc.
        refine (sq_tok _ (lit "@") _ _ _ _ _). cbn [app]. refine (sq_end _ _ _ _ [Pair I_shape_id (ref_text r) []] s s (E _ (or_introl F)) (ev_opt2 _ _ _ _ _)).
        follow_cases F; ev_compute.
    - destruct (ev_arguments a A D) as (ps & B & RD). eexists (Pair I_a_trait _ (Pair I_shape_id (ref_text r) [] :: ps)). split; [split; [reflexivity|apply RD, N]|].
      intros s F. refine (ev_normal I_a_trait _ _ s eq_refl _). cbn [snd smithy_rule PSeqs]. specialize (B s). rewrite <- !app_assoc in *.
      refine (sq_tok _ (lit "@") _ _ _ _ _). refine (sq _ _ _ _ [Pair I_shape_id (ref_text r) []] _ ps s (E _ _) (ev_opt1 _ _ _ _ _ B)).
      right. destruct a; [congruence|eexists; reflexivity..].
  Qed.
End Facts.
