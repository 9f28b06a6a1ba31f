(** Names, traits and members of the Smithy IDL: what is written is read back. *)
From Verif.Model Require Import SelectorParse SmithyParse SmithyWrite.
From Verif.Spec Require Import IdentitySpec SmithySpec.
From Verif.Proofs Require Import BaseFacts HashMapFacts IdentityFacts ValueFacts PegFacts SmithyGrammarFacts SmithyValueFacts.
From Verif.Proofs Require SelectorFacts SelectorGrammarFacts.

(** ** Names *)
Lemma identifier_no_hash n : is_identifier n -> ~ In "#"%char n.
Proof.
  intros (us & c & r & -> & U & A & W) I. apply in_app_iff in I as [I|[E|I]].
  - rewrite Forall_forall in U. discriminate (U _ I).
  - subst c. discriminate A.
  - rewrite Forall_forall in W. destruct (W _ I) as [X|[X|X]]; discriminate X.
Qed.
Lemma name_local n : short_identifier n -> shape_name_from_str n = Ok (Local n).
Proof.
  intros S. assert (I := SelectorFacts.short_is_identifier _ S). unfold shape_name_from_str.
  destruct (sid_is_valid n) eqn:V.
  - exfalso. apply sid_is_valid_spec in V as [i V]. apply sid_from_str_sound in V as [_ E]. apply (identifier_no_hash _ I).
    rewrite E. unfold id_text. apply in_or_app. right. left. reflexivity.
  - rewrite (SelectorFacts.short_from_str _ S). apply ident_is_valid_spec in I. rewrite I. reflexivity.
Qed.
Lemma absolute_valid id : absolute id -> valid_id id.
Proof.
  intros ((ids & NE & F & E) & S & M). destruct id as [n nm mb]. cbn in *. subst mb n. repeat split; [|apply SelectorFacts.short_is_identifier, S].
  exists ids. split; [exact NE|]. split; [|reflexivity]. apply (Forall_impl _ SelectorFacts.short_is_identifier), F.
Qed.
Lemma absolute_from_str id : absolute id -> sid_from_str (sid_display id) = Ok id.
Proof. intros A. rewrite sid_display_text. apply sid_from_str_complete, absolute_valid, A. Qed.
Lemma name_qualified id : absolute id -> shape_name_from_str (sid_display id) = Ok (Qualified id).
Proof.
  intros A. unfold shape_name_from_str. assert (E := absolute_from_str id A).
  assert (V : sid_is_valid (sid_display id) = true) by (apply sid_is_valid_spec; eauto). rewrite V, E. reflexivity.
Qed.
Lemma absolute_text id : absolute id -> exists ids, ids <> [] /\ Forall short_identifier ids /\ short_identifier (sid_name id)
  /\ sid_display id = join ["."%char] ids ++ "#"%char :: sid_name id.
Proof.
  intros ((ids & NE & F & E) & S & M). exists ids. repeat split; auto. rewrite sid_display_text. unfold id_text. rewrite M, E, app_nil_r. reflexivity.
Qed.
Lemma dotted_solid ids r : ids <> [] -> Forall short_identifier ids -> solid (join ["."%char] ids ++ r).
Proof.
  intros NE F. destruct ids as [|x l]; [congruence|]. inversion F as [|? ? X _]; subst. rewrite SelectorGrammarFacts.join_dotted, <- app_assoc.
  apply solid_app, short_solid, X.
Qed.
(** [t] is read as the shape name [n]. *)
Definition names (t : str) (n : shape_name) : Prop :=
  solid t /\ shape_name_from_str t = Ok n /\ forall r, id_follow r -> ev false (icall I_shape_id) (t ++ r) (Some ([Pair I_shape_id t []], r)).
Lemma names_local n : short_identifier n -> names n (Local n).
Proof. intros S. split; [apply short_solid, S|]. split; [apply name_local, S|]. intros r F. apply ev_id_short; assumption. Qed.
Lemma names_qualified id : absolute id -> names (sid_display id) (Qualified id).
Proof.
  intros A. destruct (absolute_text id A) as (ids & NE & F & S & E). split; [rewrite E; apply dotted_solid; assumption|].
  split; [apply name_qualified, A|]. intros r FR. rewrite E. apply ev_id_full; assumption.
Qed.

(** ** Loops *)
Lemma fold_result_app {S A} (f : S -> A -> result S) l1 l2 s :
  fold_result f (l1 ++ l2) s = (s' <- fold_result f l1 s ;; fold_result f l2 s').
Proof. revert s. induction l1 as [|x l1 IH]; intros s; cbn; [reflexivity|]. destruct (f s x); cbn; auto. Qed.
(** Collecting what the pairs give. *)
Lemma fold_collect {X V} (g : list V -> ipair -> result (list V)) (d : X -> V) (Q : X -> ipair -> Prop) l ps :
  (forall x p acc, Q x p -> g acc p = Ok (acc ++ [d x])) -> Forall2 Q l ps -> forall acc, fold_result g ps acc = Ok (acc ++ map d l).
Proof.
  intros G. induction 1 as [|x p l ps P F IH]; intros acc; cbn [fold_result map]; [rewrite app_nil_r; reflexivity|].
  rewrite (G _ _ _ P), IH, <- app_assoc. reflexivity.
Qed.
(** [t] is one match of [e], a pair with [Q]. *)
Definition gives (e : pexp irule) (t : str) (Q : ipair -> Prop) : Prop :=
  solid t /\ exists p, Q p /\ forall r, follow r -> ev false e (t ++ r) (Some ([p], r)).
Lemma join_prefixed sep x l : join sep (x :: l) = x ++ prefixed sep l.
Proof.
  revert x. induction l as [|y l IH]; intros x; [cbn; rewrite app_nil_r; reflexivity|].
  change (join sep (x :: y :: l)) with (x ++ sep ++ join sep (y :: l)). rewrite IH. unfold prefixed. cbn [map concat]. rewrite <- !app_assoc. reflexivity.
Qed.
Definition suffixed (sep : str) (l : list str) : str := concat (map (fun t => t ++ sep) l).
Lemma suffixed_prefixed sep l : sep ++ suffixed sep l = prefixed sep l ++ sep.
Proof.
  induction l as [|x l IH]; cbn; [rewrite app_nil_r; reflexivity|]. unfold suffixed, prefixed in *. cbn. rewrite <- !app_assoc.
  f_equal. f_equal. exact IH.
Qed.
(** A text that starts like a name. *)
Definition named (s : str) : Prop := match s with c :: _ => is_alpha c = true \/ c = "_"%char | [] => False end.
Lemma named_solid s : named s -> solid s.
Proof.
  destruct s as [|c s]; [intros []|]. cbn. intros [A| ->]; [|split; [reflexivity|discriminate]].
  all_chars c; try discriminate A; (split; [reflexivity|discriminate]).
Qed.
Lemma named_app s r : named s -> named (s ++ r).
Proof. destruct s; [intros []|]. exact (fun H => H). Qed.
Lemma short_named n : short_identifier n -> named n.
Proof. intros S. destruct (short_head n S) as (c & r & -> & A). exact A. Qed.
(** A text that does not start with a comment. *)
Definition unslashed (s : str) : Prop := match s with c :: _ => c <> "/"%char | [] => True end.
Lemma named_unslashed s : named s -> unslashed s.
Proof. destruct s as [|c s]; [intros []|]. cbn. intros [A| ->]; [|discriminate]. intros ->. discriminate A. Qed.
Lemma unslashed_app s r : s <> [] -> unslashed s -> unslashed (s ++ r).
Proof. destruct s; [congruence|]. exact (fun _ H => H). Qed.
Lemma ev_no_doc s : solid s -> unslashed s -> ev false (icall I_documentation_comment) s None.
Proof.
  intros S N. apply ev_rule_fail. cbn [fst snd smithy_rule PSeqs sub_atomic].
  refine (sq_fail _ _ _ _ [] s (ev_no_ws _ _ _) _); [rewrite <- (app_nil_r s); apply solid_no_ws, S|].
  apply ev_seq_fail1. destruct s as [|c s]; [destruct S|]. cbn [unslashed] in N. clear S.
  apply (ev_run _ 60). all_chars c; try reflexivity. exfalso. apply N. reflexivity.
Qed.
Lemma ev_no_docs s : solid s -> unslashed s -> ev false (PStar (icall I_documentation_comment)) s (Some ([], s)).
Proof. intros S N. apply ev_star_nil, ev_no_doc; assumption. Qed.
Lemma ev_no_trait s : named s -> ev false (icall I_a_trait) s None.
Proof.
  intros N. destruct s as [|c s]; [destruct N|]. apply (ev_run _ 60). destruct N as [N| ->]; [|reflexivity].
  all_chars c; try discriminate N; reflexivity.
Qed.

Section Facts.
  Variables (f64_str : Z -> str) (debug_str : str -> str) (f64_parse : str -> Z).
  Notation value_writable := (value_writable f64_str debug_str f64_parse).
  Notation write_value := (write_value f64_str debug_str).
  Notation idl_value := (idl_value f64_parse).
  Notation reads := (reads f64_parse).
  Notation a_trait := (a_trait f64_parse).
  Notation trait_statements := (trait_statements f64_parse).
  Notation shape_member := (shape_member f64_parse).

  (** ** Traits *)
  Definition value_text (o : option value) : str :=
    match o with None => [] | Some v => lit "(" ++ write_value v true ++ lit ")" end.
  Definition value_back (o : option value) : value := match o with Some v => v | None => VObject [] end.
  Definition trait_of (n : shape_name) (v : value) (p : ipair) : Prop := p_rule p = I_a_trait /\ a_trait p = Ok (TB n (Some v)).

  (** What stands between the parentheses is not taken for members. *)
  Lemma no_structure v r : value_writable v -> (forall l, v <> VObject l) ->
    ev false (icall I_trait_structure) (write_value v false ++ ")"%char :: r) None.
  Proof.
    intros W N. apply ev_rule_fail. cbn [fst snd smithy_rule sub_atomic]. apply ev_seq_fail1. apply ev_rule_fail. cbn [fst snd smithy_rule sub_atomic PSeqs].
    assert (CL : ev false (PSeq iws (PSeq (itok ":") (PSeq iws (icall I_node_value)))) (")"%char :: r) None).
    { refine (sq_fail _ _ _ _ [] _ (ev_no_ws _ _ _) _); [split; [reflexivity|discriminate]|]. apply ev_seq_fail1. ev_compute. }
    inversion W; subst; cbn [SmithyWrite.write_value].
    - apply ev_seq_fail1. ev_compute.
    - exfalso. eapply N. reflexivity.
    - apply ev_seq_fail1. destruct (SelectorFacts.int_text n) as (sign & w & E & S & WH).
      change (number_display f64_str (NInteger n)) with (int_to_str n). rewrite E.
      destruct S as [-> | ->]; [|ev_compute]. destruct WH as [-> | (c & x & -> & C & _)]; [ev_compute|].
      cbn [app]. exists 20. all_chars c; try discriminate C; reflexivity.
    - apply ev_seq_fail1. change (number_display f64_str (NFloat b)) with (f64_str b).
      match goal with D : decimal _ |- _ => destruct D as (sign & w & fr & E & S & WH & _) end. rewrite E.
      destruct S as [-> | ->]; [|ev_compute]. destruct WH as [-> | (c & x & -> & C & _)]; [ev_compute|].
      cbn [app]. exists 20. all_chars c; try discriminate C; reflexivity.
    - assert (S : short_identifier (bool_str b)).
      { destruct b; [exists "t"%char, (lit "rue")|exists "f"%char, (lit "alse")]; (split; [left; reflexivity|]; split; [reflexivity|]);
          repeat constructor; left; reflexivity. }
      refine (sq_fail _ _ _ _ _ _ (ev_object_key (bool_str b) _ S (follow_stop _ _)) CL). reflexivity.
    - match goal with K : text_writable _ _ |- _ => destruct K as [T E] end. rewrite E.
      refine (sq_fail _ _ _ _ _ (")"%char :: r) _ CL). apply (ev_silent I_node_object_key); [reflexivity|]. cbn [snd smithy_rule].
      apply ev_alt1. apply (ev_quoted s _ T).
  Qed.
  Lemma trait_kvp_read q k p v : p_rule p = I_node_value -> idl_value p = Ok v -> forall t,
    trait_kvp f64_parse (Pair q t [Pair I_identifier k []; p]) = Ok (k, v).
  Proof.
    intros P V t. unfold trait_kvp. cbn [p_inner fold_result]. unfold trait_kvp_step. cbn [p_rule p_text rbind fst snd]. rewrite P, V. reflexivity.
  Qed.
  (** The value in its parentheses. *)
  Lemma ev_body v : value_writable v -> exists ps,
    (forall r, ev false (icall I_trait_body) ((lit "(" ++ write_value v true ++ lit ")") ++ r) (Some (ps, r)))
    /\ forall x n t, shape_name_from_str n = Ok x -> a_trait (Pair I_a_trait t (Pair I_shape_id n [] :: ps)) = Ok (TB x (Some v)).
  Proof.
    intros W. assert (NS : forall r, no_ws (")"%char :: r)) by (intros r; split; [reflexivity|discriminate]).
    (* the frame *)
    assert (FR : forall t ps, (forall r, ev false (icall I_trait_body_value) (t ++ ")"%char :: r) (Some (ps, ")"%char :: r))) -> solid t ->
      forall r, ev false (icall I_trait_body) ((lit "(" ++ t ++ lit ")") ++ r) (Some (ps, r))).
    { intros t ps T SO r. apply (ev_silent I_trait_body); [reflexivity|]. cbn [snd smithy_rule PSeqs]. rewrite <- !app_assoc.
      refine (sq_tok _ (lit "(") _ _ ps r _). refine (sq _ _ _ _ [] _ ps r (ev_no_ws _ _ (solid_no_ws _ _ SO)) _).
      refine (sq_end _ _ _ _ ps (lit ")" ++ r) r _ (ev_str _ _ _ _)).
      rewrite <- (app_nil_r ps). refine (star_cons _ _ _ ps (lit ")" ++ r) [] _ (sq_end _ _ _ _ ps (lit ")" ++ r) _ (T _) (ev_no_ws _ _ _)) _);
        [apply NS|]. apply ev_star_nil, ev_seq_fail1. ev_compute. }
    assert (D : (exists l, v = VObject l) \/ forall l, v <> VObject l) by (destruct v; [right|left|right..]; try (intros l E; discriminate E); eauto).
    destruct D as [[l ->]|NO].
    - inversion W as [|l0 D F| | | |]; subst. cbn [SmithyWrite.write_value]. cbn [app]. rewrite app_nil_r.
      set (en := map (fun e : str * value => (fst e, (write_value (snd e) false, snd e))) l).
      assert (EV : map entry_value en = l).
      { unfold en. rewrite map_map. rewrite <- (map_id l) at 2. apply map_ext. intros [k v]. reflexivity. }
      assert (A : Forall (entry_ok f64_parse) en).
      { apply Forall_forall. intros x I. apply in_map_iff in I as ([k v] & <- & I). rewrite Forall_forall in F.
        destruct (F _ I) as [S V]. split; [exact S|]. cbn [fst snd]. apply (reads_value _ _ _ _ V). }
      assert (TX : join (lit ", ") (map (fun kv => fst kv ++ lit ": " ++ write_value (snd kv) false) l) = join comma_sep (map entry_text en)).
      { unfold en. rewrite map_map. reflexivity. }
      rewrite TX. clear TX. destruct en as [|x en'] eqn:EN.
      + rewrite <- EV. exists []. split; [intros r; ev_compute|]. intros x n t E. unfold SmithyParse.a_trait. cbn [p_inner fold_result a_trait_step rbind p_rule p_text].
        unfold trait_new. rewrite E. reflexivity.
      + assert (B := entries_kvp f64_parse I_trait_structure_kvp _ eq_refl eq_refl A).
        inversion B as [|x0 l0 [SX (p & (pv & PE & PR & PV) & PX)] B']; subst x0 l0.
        destruct (star_ws_list en' entry_text (icall I_trait_structure_kvp) _ comma_sep (proj1 comma_blank) (proj2 comma_blank) B') as (ps & FP & PS).
        exists (p :: ps). split.
        * cbn [map]. rewrite join_prefixed. apply FR; [|apply solid_app, SX]. intros r.
          apply (ev_silent I_trait_body_value); [reflexivity|]. cbn [snd smithy_rule]. apply ev_alt1.
          apply (ev_silent I_trait_structure); [reflexivity|]. cbn [snd smithy_rule]. rewrite <- app_assoc.
          refine (sq _ _ _ _ [p] _ ps _ (PX _ _) (PS _ _ _)); [|reflexivity|].
          -- destruct en'; [reflexivity|]. unfold prefixed. cbn [map concat]. rewrite <- !app_assoc. apply blank_follow; apply comma_blank.
          -- refine (sq_fail _ _ _ _ [] _ (ev_no_ws _ _ (NS _)) _). ev_compute.
        * intros y n t E. unfold SmithyParse.a_trait. cbn [p_inner].
          change (fold_result (a_trait_step f64_parse) (Pair I_shape_id n [] :: p :: ps) (None, None, []))
            with (fold_result (a_trait_step f64_parse) (p :: ps) (Some n, None, [])).
          assert (K : forall l q, Forall2 (fun x p => exists v, p = Pair I_trait_structure_kvp (entry_text x) [Pair I_identifier (fst x) []; v]
                      /\ p_rule v = I_node_value /\ idl_value v = Ok (snd (snd x))) l q -> forall acc,
                    fold_result (a_trait_step f64_parse) q (Some n, None, acc)
                    = Ok (Some n, None, fold_left (fun m kv => hm_insert str_eqb (fst kv) (snd kv) m) (map entry_value l) acc)).
          { clear. induction 1 as [|x p l q (v & -> & R & V) F IH]; intros acc; [reflexivity|]. cbn [fold_result a_trait_step p_rule].
            rewrite (trait_kvp_read _ _ _ _ R V). cbn [rbind fst snd]. rewrite IH. reflexivity. }
          assert (FX : Forall2 (fun x p => exists v, p = Pair I_trait_structure_kvp (entry_text x) [Pair I_identifier (fst x) []; v]
                      /\ p_rule v = I_node_value /\ idl_value v = Ok (snd (snd x))) (x :: en') (p :: ps)) by (constructor; eauto).
          rewrite (K _ _ FX), EV, (insert_all _ str_eqb_equiv); [|exact D]. cbn [app rbind].
          destruct l as [|e l]; [discriminate EV|]. unfold trait_new. rewrite E. reflexivity.
    - assert (T : write_value v true = write_value v false) by (destruct v; try reflexivity; exfalso; eapply NO; reflexivity). rewrite T.
      destruct (reads_value _ _ _ _ W) as (SO & p & P & V & E). exists [p]. split.
      + apply FR; [|exact SO]. intros r. apply (ev_silent I_trait_body_value); [reflexivity|]. cbn [snd smithy_rule].
        apply ev_alt2; [apply no_structure; assumption|]. apply E. reflexivity.
      + intros x n t N. unfold SmithyParse.a_trait. cbn [p_inner fold_result a_trait_step rbind p_rule p_text]. rewrite P, V. cbn [rbind].
        unfold trait_new. rewrite N. reflexivity.
  Qed.
  Definition trait_value_ok (o : option value) : Prop := match o with Some v => value_writable v | None => True end.
  Lemma gives_trait t n o : names t n -> trait_value_ok o -> gives (icall I_a_trait) (lit "@" ++ t ++ value_text o) (trait_of n (value_back o)).
  Proof.
    intros (SO & N & E) V. split; [split; [reflexivity|discriminate]|]. destruct o as [v|]; cbn [value_text value_back].
    - destruct (ev_body v V) as (ps & B & R). eexists (Pair I_a_trait _ (Pair I_shape_id t [] :: ps)). split; [split; [reflexivity|apply R, N]|].
      intros r F. refine (ev_normal I_a_trait _ _ r eq_refl _). cbn [snd smithy_rule PSeqs]. specialize (B r). rewrite <- !app_assoc in *.
      refine (sq_tok _ (lit "@") _ _ _ _ _). refine (sq _ _ _ _ [Pair I_shape_id t []] _ ps r (E _ _) (ev_opt1 _ _ _ _ _ B)).
      right. eexists. reflexivity.
    - eexists (Pair I_a_trait _ [Pair I_shape_id t []]). split; [split; [reflexivity|]|].
      + unfold SmithyParse.a_trait. cbn [p_inner fold_result a_trait_step rbind p_rule p_text]. unfold trait_new. rewrite N. reflexivity.
      + intros r F. refine (ev_normal I_a_trait _ _ r eq_refl _). cbn [snd smithy_rule PSeqs]. rewrite <- !app_assoc.
        refine (sq_tok _ (lit "@") _ _ _ _ _). cbn [app]. refine (sq_end _ _ _ _ [Pair I_shape_id t []] r r (E _ (or_introl F)) (ev_opt2 _ _ _ _ _)).
        follow_cases F; ev_compute.
  Qed.

  (** Traits, each followed by [sep]. *)
  Definition traits_of (l : list trait_builder) (p : ipair) : Prop := p_rule p = I_trait_statements /\ trait_statements p = Ok l.
  Lemma ev_traits sep (l : list (str * trait_builder)) : blank sep -> sep <> [] ->
    Forall (fun x => gives (icall I_a_trait) (fst x) (fun p => p_rule p = I_a_trait /\ a_trait p = Ok (snd x))) l ->
    exists p, traits_of (map snd l) p
      /\ forall r, named r -> ev false (icall I_trait_statements) (suffixed sep (map fst l) ++ r) (Some ([p], r)).
  Proof.
    intros BS NS A.
    assert (END : forall w r, blank w -> named r -> ev false (PSeq iws (icall I_a_trait)) (w ++ r) None).
    { intros w r BW NR. refine (sq_fail _ _ _ _ [] r (ev_ws _ _ _ BW _) (ev_no_trait _ NR)). rewrite <- (app_nil_r r). apply solid_no_ws, named_solid, NR. }
    assert (K : exists ps, Forall2 (fun x p => p_rule p = I_a_trait /\ a_trait p = Ok (snd x)) l ps
      /\ forall r, named r -> ev false (PSeq (PStar (PSeq iws (icall I_a_trait))) iws) (suffixed sep (map fst l) ++ r) (Some (ps, r))).
    { destruct A as [|x l (SO & p & Q & E) A].
      - exists []. split; [constructor|]. intros r NR. refine (sq_end _ _ _ _ [] r r (ev_star_nil _ _ _ _ (END [] r (Forall_nil _) NR)) (ev_no_ws _ _ _)).
        rewrite <- (app_nil_r r). apply solid_no_ws, named_solid, NR.
      - destruct (star_ws_list l fst (icall I_a_trait) _ sep BS NS A) as (ps & F & PS). exists (p :: ps). split; [constructor; assumption|].
        intros r NR. unfold suffixed. cbn [map concat]. fold (suffixed sep (map fst l)). rewrite <- (app_assoc (fst x) sep), suffixed_prefixed, <- !app_assoc.
        refine (sq_end _ _ _ _ (p :: ps) (sep ++ r) r _ (ev_ws _ _ _ BS _)).
        + refine (star_cons _ _ _ [p] _ ps _ (sq _ _ _ _ [] _ [p] _ (ev_no_ws _ _ (solid_no_ws _ _ SO)) (E _ _)) (PS _ _ _)).
          * destruct (map fst l) as [|y u]; [exact (blank_follow sep r BS NS)|]. unfold prefixed. cbn [map concat]. rewrite <- !app_assoc. apply blank_follow; assumption.
          * apply blank_follow; assumption.
          * apply END; assumption.
        + rewrite <- (app_nil_r r). apply solid_no_ws, named_solid, NR. }
    destruct K as (ps & F & E). exists (Pair I_trait_statements (suffixed sep (map fst l)) ps). split; [split; [reflexivity|]|].
    - unfold SmithyParse.trait_statements. cbn [p_inner]. refine (fold_collect _ snd _ l ps _ F []). intros x p acc [P V]. rewrite P, V. reflexivity.
    - intros r NR. exact (ev_normal I_trait_statements _ _ r eq_refl (E r NR)).
  Qed.

  (** ** Members *)
  Definition member_of (m : member_builder) (p : ipair) : Prop := p_rule p = I_shape_member_kvp /\ shape_member p = Ok m.
  Lemma gives_member sep (l : list (str * trait_builder)) n t x : blank sep -> sep <> [] ->
    Forall (fun x => gives (icall I_a_trait) (fst x) (fun p => p_rule p = I_a_trait /\ a_trait p = Ok (snd x))) l ->
    short_identifier n -> names t x -> unslashed (suffixed sep (map fst l) ++ n) ->
    gives (icall I_shape_member_kvp) (suffixed sep (map fst l) ++ n ++ lit ": " ++ t) (member_of (MB n (map snd l) x)).
  Proof.
    intros BS NS A S (SO & N & E) US. destruct (ev_traits sep l BS NS A) as (p & [P T] & EP).
    assert (SX : solid (suffixed sep (map fst l) ++ n ++ lit ": " ++ t)).
    { destruct A as [|y l (SY & _) A]; [exact (solid_app n _ (short_solid _ S))|]. unfold suffixed. cbn [map concat]. rewrite <- !app_assoc. apply solid_app, SY. }
    assert (US' : forall r, unslashed ((suffixed sep (map fst l) ++ n ++ lit ": " ++ t) ++ r)).
    { intros r. rewrite (app_assoc (suffixed _ _)), <- app_assoc. apply unslashed_app; [|exact US]. intros Z. apply app_eq_nil in Z as [_ ->].
      destruct S as (c & u & [X|X] & _); discriminate X. }
    split; [exact SX|]. eexists (Pair I_shape_member_kvp _ [p; Pair I_identifier n []; Pair I_shape_id t []]). split; [split; [reflexivity|]|].
    - unfold SmithyParse.shape_member. cbn [p_inner fold_result]. unfold member_step at 1. rewrite P, T. cbn [rbind member_step p_rule p_text mp_doc mp_traits mp_id mp_target both fst snd].
      unfold member_new. rewrite (SelectorFacts.short_from_str _ S), N. reflexivity.
    - intros r F. refine (ev_normal I_shape_member_kvp _ _ r eq_refl _). cbn [snd smithy_rule PSeqs].
      refine (sq _ _ _ _ [] _ _ r (ev_no_docs _ (solid_app _ _ SX) (US' r)) _). refine (sq _ _ _ _ [] _ _ r (ev_no_ws _ _ (solid_no_ws _ _ SX)) _).
      rewrite <- app_assoc. refine (sq _ _ _ _ [p] _ [Pair I_identifier n []; Pair I_shape_id t []] r (EP _ (named_app _ _ (named_app _ _ (short_named _ S)))) _).
      rewrite <- !app_assoc. refine (sq _ _ _ _ [Pair I_identifier n []] _ [Pair I_shape_id t []] r (ev_identifier false n _ S (follow_stop (lit ": " ++ t ++ r) eq_refl)) _).
      change (lit ": " ++ t ++ r) with (lit ":" ++ lit " " ++ t ++ r).
      refine (sq _ _ _ _ [] _ _ r (ev_no_ws _ _ _) _); [split; [reflexivity|discriminate]|].
      refine (sq_tok _ (lit ":") _ _ _ _ _). refine (sq _ _ _ _ [] (t ++ r) _ r (ev_ws _ (lit " ") _ _ (solid_no_ws _ _ SO)) (E r (or_introl F))).
      repeat constructor.
  Qed.
  (** The block of members. *)
  Definition block_text (sep w tail : str) (l : list str) : str := lit "{" ++ w ++ join sep l ++ tail ++ lit "}".
  Lemma ev_members (l : list (str * member_builder)) sep w tail : blank sep -> sep <> [] -> blank w -> blank tail -> (l = [] -> tail = []) ->
    Forall (fun x => gives (icall I_shape_member_kvp) (fst x) (member_of (snd x))) l ->
    exists p, (p_rule p = I_shape_members /\ shape_members f64_parse p = Ok (map snd l))
      /\ forall r, ev false (icall I_shape_members) (block_text sep w tail (map fst l) ++ r) (Some ([p], r)).
  Proof.
    intros BS NS BW BT LT A. destruct (star_list l fst (icall I_shape_member_kvp) _ sep BS NS A) as (ps & F & E).
    exists (Pair I_shape_members (block_text sep w tail (map fst l)) ps). split; [split; [reflexivity|]|].
    - unfold shape_members. cbn [p_inner]. refine (fold_collect _ snd _ l ps _ F []). intros x p acc [P V]. rewrite P, V. reflexivity.
    - intros r. refine (ev_normal I_shape_members _ _ r eq_refl _). cbn [snd smithy_rule PSeqs]. unfold block_text. rewrite <- !app_assoc.
      refine (sq_tok _ (lit "{") _ _ ps r _). refine (sq _ _ _ _ [] (join sep (map fst l) ++ tail ++ lit "}" ++ r) ps r (ev_ws _ _ _ BW _) _).
      + destruct A as [|x l [SX _] A]; [rewrite (LT eq_refl); split; [reflexivity|discriminate]|].
        cbn [map]. rewrite join_prefixed, <- !app_assoc. apply solid_no_ws, SX.
      + refine (sq_end _ _ _ _ ps (lit "}" ++ r) r _ (ev_str _ _ _ _)).
        apply E; [exact BT|exact LT|split; [reflexivity|discriminate]| |ev_compute].
        destruct tail as [|c u]; [reflexivity|]. apply blank_follow; [exact BT|discriminate].
  Qed.
End Facts.
