(** Documentation, members and bodies of shapes in documents: their texts are read as what they declare. *)
From Verif.Model Require Import SelectorParse SmithyParse SmithyWrite.
From Verif.Spec Require Import IdlSpec.
From Verif.Proofs Require Import BaseFacts HashMapFacts IdentityFacts ValueFacts PegFacts SmithyGrammarFacts SmithyValueFacts SmithyTraitFacts SmithyShapeFacts LayoutFacts IdlValueFacts ShapeFacts.
From Verif.Proofs Require SelectorFacts SelectorGrammarFacts.

Lemma line_end_blank : blank line_end. Proof. repeat constructor. Qed.

(** ** White space in front of documentation *)
Lemma white_same c : is_whitespace c = white c.
Proof.
  apply eq_true_iff_eq. unfold is_whitespace, white.
  rewrite !orb_true_iff, !andb_true_iff, !N.leb_le, !N.eqb_eq, existsb_exists. split.
  - intros H. exists c. split; [|apply N.eqb_refl].
    assert (R : forall a n, (a <= c <= a + N.of_nat n)%N -> In c (map (fun k => (a + N.of_nat k)%N) (seq 0 (S n)))).
    { intros a n B. apply in_map_iff. exists (N.to_nat (c - a)). split; [lia|]. apply in_seq. lia. }
    repeat destruct H as [H|H]; subst; try (cbn; tauto).
    + apply (R 9%N 4) in H. cbn in H. cbn. tauto.
    + apply (R 8192%N 10) in H. cbn in H. cbn. tauto.
  - intros (x & I & X). apply N.eqb_eq in X. subst x. cbn in I.
    repeat destruct I as [<- |I]; try tauto; repeat (first [left; lia|right; lia|left]).
Qed.
Lemma trimmed s : trim_start s = unindented s.
Proof.
  unfold trim_start, unindented. generalize (List.length s). intros n. revert s. induction n as [|n IH]; intros s; [reflexivity|].
  cbn [trim_upto drop_white]. destruct (decode1 s) as [[c s']|]; [|reflexivity]. rewrite white_same, IH. reflexivity.
Qed.

(** ** Documentation *)
Definition docs_text (docs : list str) : str := concat (map (fun d => lit "///" ++ d ++ line_end) docs).
Definition doc_pair (d : str) : ipair := Pair I_documentation_text d [].
Lemma ev_docs docs r : Forall comment_text docs -> solid r -> unslashed r ->
  ev false (PStar (icall I_documentation_comment)) (docs_text docs ++ r) (Some (map doc_pair docs, r)).
Proof.
  intros F S U. induction F as [|d docs D F IH]; [apply ev_no_docs; assumption|].
  unfold docs_text. cbn [map concat]. fold (docs_text docs). rewrite <- !app_assoc.
  refine (star_cons _ _ _ [doc_pair d] _ _ r _ IH). apply (ev_silent I_documentation_comment); [reflexivity|]. cbn [snd smithy_rule PSeqs].
  refine (sq _ _ _ _ [] _ [doc_pair d] _ (ev_no_ws _ _ _) _); [split; [reflexivity|discriminate]|].
  refine (sq_tok _ (lit "///") _ _ _ _ _).
  refine (sq_end _ _ _ _ [doc_pair d] (line_end ++ docs_text docs ++ r) _ (ev_normal I_documentation_text d [] _ eq_refl _) _).
  - apply ev_comment; [exact D|]. intros c [= <-]. split; [reflexivity|discriminate].
  - apply ev_alt1. exact (ev_str _ _ _ _).
Qed.

Section Facts.
  Variable f64_parse : str -> Z.
  Context `{Hasher}.
  Notation idl_value := (idl_value f64_parse).
  Notation reads := (reads f64_parse).
  Notation node_value := (node_value f64_parse).
  Notation a_trait := (a_trait f64_parse).
  Notation declared_trait := (declared_trait f64_parse).
  Notation declared_traits := (declared_traits f64_parse).
  Notation declared_member := (declared_member f64_parse).
  Notation body_of := (body_of f64_parse).

  Lemma applied_declared docs ts : applied (map trim_start docs) (map declared_trait ts) = Ok (declared_traits docs ts).
  Proof.
    unfold IdlSpec.declared_traits. destruct docs as [|d docs]; [reflexivity|]. unfold applied. cbn [map app]. rewrite !trimmed, (map_ext _ _ trimmed). reflexivity.
  Qed.
  Lemma heading_split docs ts r : heading_text docs ts ++ r = docs_text docs ++ suffixed line_end (map idl_trait_text ts) ++ r.
  Proof. unfold heading_text, suffixed. rewrite map_map, <- app_assoc. reflexivity. Qed.
  Lemma heading_solid docs ts r : named r -> solid (heading_text docs ts ++ r).
  Proof.
    intros N. unfold heading_text. destruct docs as [|d docs]; [|split; [reflexivity|discriminate]].
    destruct ts as [|t ts]; [apply named_solid, N|split; [reflexivity|discriminate]].
  Qed.
  Lemma traits_front ts r : named r -> solid (suffixed line_end (map idl_trait_text ts) ++ r) /\ unslashed (suffixed line_end (map idl_trait_text ts) ++ r).
  Proof.
    intros N. destruct ts as [|t ts]; [split; [apply named_solid, N|apply named_unslashed, N]|]. split; [split; [reflexivity|discriminate]|discriminate].
  Qed.
  (** Documentation and traits, then the rest. *)
  Lemma ev_heading docs ts : heading_ok docs ts -> exists p, traits_of f64_parse (map declared_trait ts) p
    /\ forall e r ps s, named r -> ev false e r (Some (ps, s)) ->
       ev false (PSeq (PStar (icall I_documentation_comment)) (PSeq iws (PSeq (icall I_trait_statements) e))) (heading_text docs ts ++ r)
         (Some (map doc_pair docs ++ p :: ps, s)).
  Proof.
    intros [D T].
    destruct (ev_traits f64_parse line_end (map (fun t => (idl_trait_text t, declared_trait t)) ts) line_end_blank) as (p & Q & E); [discriminate| |].
    { rewrite Forall_map. apply (Forall_impl _ (P := trait_ok)); [|exact T]. intros t O. exact (gives_trait_n f64_parse t O). }
    rewrite map_map in Q. rewrite map_map in E. cbn [fst snd] in Q, E. exists p. split; [exact Q|]. intros e r ps s N R.
    rewrite heading_split. destruct (traits_front ts r N) as [SO US].
    refine (sq _ _ _ _ _ _ (p :: ps) s (ev_docs docs _ D SO US) _).
    refine (sq _ _ _ _ [] _ (p :: ps) s (ev_no_ws _ _ _) _); [rewrite <- (app_nil_r (suffixed _ _ ++ r)); apply solid_no_ws, SO|].
    exact (sq _ _ _ _ [p] _ ps s (E r N) R).
  Qed.

  (** ** Members *)
  Lemma member_docs docs : forall a b c d more,
    fold_result (member_step f64_parse) (map doc_pair docs ++ more) (MP a b c d)
    = fold_result (member_step f64_parse) more (MP (a ++ map trim_start docs) b c d).
  Proof.
    induction docs as [|x docs IH]; intros a b c d more; cbn [map app]; [rewrite app_nil_r; reflexivity|].
    cbn [fold_result]. unfold member_step at 1. cbn [doc_pair p_rule mp_doc mp_traits mp_id mp_target rbind]. rewrite IH, <- app_assoc. reflexivity.
  Qed.
  Lemma gives_member_n x : idl_member_ok x -> gives (icall I_shape_member_kvp) (idl_member_text x) (member_of f64_parse (declared_member x)).
  Proof.
    intros (HO & S & R). destruct (ev_heading _ _ HO) as (p & [P T] & EP). destruct (ref_names _ R) as (SO & N & E).
    assert (NM : forall r, named ((im_name x ++ lit ": " ++ ref_text (im_target x)) ++ r)).
    { intros r. apply named_app, named_app, short_named, S. }
    split; [apply heading_solid; rewrite <- (app_nil_r (_ ++ _)); apply NM|].
    eexists (Pair I_shape_member_kvp _ (map doc_pair (im_docs x) ++ [p; Pair I_identifier (im_name x) []; Pair I_shape_id (ref_text (im_target x)) []])).
    split; [split; [reflexivity|]|].
    - unfold SmithyParse.shape_member. cbn [p_inner]. rewrite member_docs. cbn [fold_result app]. unfold member_step at 1. rewrite P, T.
      cbn [rbind member_step p_rule p_text mp_doc mp_traits mp_id mp_target both fst snd].
      unfold member_new. rewrite (SelectorFacts.short_from_str _ S), N. cbn [unwrap rbind mb_name mb_target]. rewrite applied_declared. reflexivity.
    - intros r F. refine (ev_normal I_shape_member_kvp _ _ r eq_refl _). cbn [snd smithy_rule PSeqs]. unfold idl_member_text. rewrite <- app_assoc.
      refine (EP _ _ [Pair I_identifier (im_name x) []; Pair I_shape_id (ref_text (im_target x)) []] r (NM r) _). rewrite <- !app_assoc.
      refine (sq _ _ _ _ [Pair I_identifier (im_name x) []] _ [Pair I_shape_id (ref_text (im_target x)) []] r
                (ev_identifier false (im_name x) _ S (follow_stop (lit ": " ++ ref_text (im_target x) ++ r) eq_refl)) _).
      change (lit ": " ++ ref_text (im_target x) ++ r) with (lit ":" ++ lit " " ++ ref_text (im_target x) ++ r).
      refine (sq _ _ _ _ [] _ _ r (ev_no_ws _ _ _) _); [split; [reflexivity|discriminate]|].
      refine (sq_tok _ (lit ":") _ _ _ _ _). refine (sq _ _ _ _ [] (ref_text (im_target x) ++ r) _ r (ev_ws _ (lit " ") _ _ (solid_no_ws _ _ SO)) (E r (or_introl F))).
      repeat constructor.
  Qed.
  Lemma braces_solid l : solid (braces l). Proof. split; [reflexivity|discriminate]. Qed.
  Lemma members_block_n ms : Forall idl_member_ok ms ->
    exists p, (p_rule p = I_shape_members /\ shape_members f64_parse p = Ok (map declared_member ms))
      /\ forall r, ev false (icall I_shape_members) (braces (map idl_member_text ms) ++ r) (Some ([p], r)).
  Proof.
    intros A. destruct (ev_members f64_parse (map (fun x => (idl_member_text x, declared_member x)) ms) line_end [] []) as (p & P & E); auto.
    - apply line_end_blank.
    - discriminate.
    - constructor.
    - constructor.
    - rewrite Forall_map. apply (Forall_impl _ (P := idl_member_ok)); [|exact A]. intros x O. apply gives_member_n, O.
    - rewrite map_map in P. rewrite map_map in E. exists p. split; [exact P|]. exact E.
  Qed.

  (** ** Bodies *)
  Ltac body_alts K := apply (ev_silent I_shape_body); [reflexivity|]; cbn [snd smithy_rule body_rules map PAlts];
    repeat first [apply ev_alt1; exact K | exact K | apply ev_alt2; [ev_compute|]].
  Lemma simple_word_text s : lit (simple_word s) = simple_display s. Proof. destruct s; reflexivity. Qed.
  Lemma list_body_n n ms : short_identifier n -> (exists x, ms = [x] /\ idl_member_ok x /\ same_name (im_name x) (lit "member")) ->
    gives (icall I_shape_body) (keyword_text "list" n (map idl_member_text ms)) (body_of n (declared_body f64_parse (DList ms)))
    /\ gives (icall I_shape_body) (keyword_text "set" n (map idl_member_text ms)) (body_of n (declared_body f64_parse (DSet ms))).
  Proof.
    intros S (x & -> & O & SN). destruct (members_block_n [x] (Forall_cons _ O (Forall_nil _))) as (p & [P M] & E).
    assert (L : last_named "member" [x] = Some (im_target x)).
    { unfold last_named, last_of. cbn [fold_left]. replace (str_eqb _ _) with true; [reflexivity|]. symmetry. apply str_eqb_eq, SN. }
    assert (R : forall mk q t, list_statement f64_parse mk (Pair q t [Pair I_identifier n []; p])
              = Ok (SB (Local n) [] (mk (MB (lit "member") [] (declared_name (im_target x)))))).
    { intros mk q t. unfold list_statement. rewrite (membered_read f64_parse q t n p _ P M). cbn [rbind snd fst map mb_name mb_target declared_member].
      apply ident_eqb_same in SN. unfold IdlSpec.declared_member. cbn [mb_name mb_target]. rewrite SN. rewrite (name_local _ S). reflexivity. }
    cbn [declared_body]. rewrite L. split; (split; [split; [reflexivity|discriminate]|]).
    - eexists. split; [|intros r F; assert (K := ev_keyword I_list_statement "list" I_shape_members n _ p eq_refl S (braces_solid _) E r); body_alts K].
      unfold SmithyShapeFacts.body_of, SmithyParse.body_statement. cbn [p_rule]. rewrite R. reflexivity.
    - eexists. split; [|intros r F; assert (K := ev_keyword I_set_statement "set" I_shape_members n _ p eq_refl S (braces_solid _) E r); body_alts K].
      unfold SmithyShapeFacts.body_of, SmithyParse.body_statement. cbn [p_rule]. rewrite R. reflexivity.
  Qed.
  Lemma ref_again r : ref_ok r -> shape_name_display (declared_name r) = ref_text r.
  Proof. destruct r; [reflexivity|]. intros _. cbn. apply sid_display_text. Qed.
  Definition upd (n : string) (o : option idl_ref) (x : idl_member) : option idl_ref :=
    match (if str_eqb (lower (im_name x)) (lower (lit n)) then Some (im_target x) else None) with Some y => Some y | None => o end.
  Lemma map_fold ms : Forall (fun x => idl_member_ok x /\ (same_name (im_name x) (lit "key") \/ same_name (im_name x) (lit "value"))) ms ->
    forall k v, fold_result map_step (map declared_member ms) (option_map ref_text k, option_map ref_text v)
      = Ok (option_map ref_text (fold_left (upd "key") ms k), option_map ref_text (fold_left (upd "value") ms v)).
  Proof.
    induction 1 as [|x ms ((_ & _ & R) & C) F IH]; intros k v; [reflexivity|]. cbn [map fold_result fold_left].
    unfold map_step at 1. unfold IdlSpec.declared_member at 1 2 3 4. cbn [mb_name mb_target fst snd]. unfold upd at 2 4.
    rewrite (ref_again _ R). unfold same_name in C. fold (ident_eqb (im_name x) (lit "key")). fold (ident_eqb (im_name x) (lit "value")).
    destruct (ident_eqb (im_name x) (lit "key")) eqn:A.
    - replace (ident_eqb (im_name x) (lit "value")) with false; [exact (IH (Some (im_target x)) v)|].
      symmetry. apply not_true_iff_false. intros B. apply ident_eqb_spec in A, B. rewrite A in B. discriminate B.
    - destruct C as [C|C]; apply ident_eqb_spec in C; [congruence|]. rewrite C. exact (IH k (Some (im_target x))).
  Qed.
  Lemma upd_some n ms : Exists (fun x => same_name (im_name x) (lit n)) ms -> forall o, exists x, In x ms /\ fold_left (upd n) ms o = Some (im_target x).
  Proof.
    assert (K : forall ms y, exists x, In x (y :: ms) /\ fold_left (upd n) ms (Some (im_target y)) = Some (im_target x)).
    { clear ms. induction ms as [|z ms IH]; intros y; [exists y; split; [left|]; reflexivity|]. cbn [fold_left]. unfold upd at 2.
      destruct (str_eqb _ _).
      - destruct (IH z) as (x & I & X). exists x. split; [right; exact I|exact X].
      - destruct (IH y) as (x & I & X). exists x. split; [|exact X]. destruct I as [I|I]; [left; exact I|right; right; exact I]. }
    induction 1 as [z ms Z|z ms X IH]; intros o; cbn [fold_left].
    - unfold upd at 2. replace (str_eqb _ _) with true; [|symmetry; apply str_eqb_eq, Z]. apply K.
    - destruct (IH (upd n o z)) as (x & I & Y). exists x. split; [right; exact I|exact Y].
  Qed.
  Lemma map_body_n n ms : short_identifier n -> idl_body_ok (DMap ms) ->
    gives (icall I_shape_body) (keyword_text "map" n (map idl_member_text ms)) (body_of n (declared_body f64_parse (DMap ms))).
  Proof.
    intros S (A & EK & EV).
    assert (A' : Forall idl_member_ok ms) by (revert A; apply Forall_impl; intros x [O _]; exact O).
    destruct (members_block_n ms A') as (p & [P M] & E).
    split; [split; [reflexivity|discriminate]|].
    eexists. split; [|intros r F; assert (K := ev_keyword I_map_statement "map" I_shape_members n _ p eq_refl S (braces_solid _) E r); body_alts K].
    unfold SmithyShapeFacts.body_of, SmithyParse.body_statement. cbn [p_rule]. unfold map_statement. rewrite (membered_read f64_parse _ _ n p _ P M). cbn [rbind snd fst].
    assert (Q := map_fold ms A None None). cbn [option_map] in Q. rewrite Q. clear Q. cbn [declared_body].
    change (last_named "key" ms) with (fold_left (upd "key") ms None). change (last_named "value" ms) with (fold_left (upd "value") ms None).
    destruct (upd_some _ _ EK None) as (k & IK & XK). destruct (upd_some _ _ EV None) as (v & IV & XV). rewrite XK, XV.
    cbn [rbind both fst snd option_map opt_member]. unfold map_new, member_new, bare_member. rewrite (name_local _ S).
    rewrite Forall_forall in A'. destruct (A' _ IK) as (_ & _ & RK). destruct (A' _ IV) as (_ & _ & RV).
    destruct (ref_names _ RK) as (_ & NK & _). destruct (ref_names _ RV) as (_ & NV & _). rewrite NK, NV. reflexivity.
  Qed.
  Lemma structure_body_n n ms : short_identifier n -> Forall idl_member_ok ms ->
    gives (icall I_shape_body) (keyword_text "structure" n (map idl_member_text ms)) (body_of n (declared_body f64_parse (DStructure ms)))
    /\ gives (icall I_shape_body) (keyword_text "union" n (map idl_member_text ms)) (body_of n (declared_body f64_parse (DUnion ms))).
  Proof.
    intros S A. destruct (members_block_n ms A) as (p & [P M] & E).
    assert (R : forall mk q t, members_statement f64_parse mk (Pair q t [Pair I_identifier n []; p]) = Ok (SB (Local n) [] (mk (map declared_member ms)))).
    { intros mk q t. unfold members_statement. rewrite (membered_read f64_parse q t n p _ P M). cbn [rbind snd fst]. rewrite (name_local _ S). reflexivity. }
    split; (split; [split; [reflexivity|discriminate]|]).
    - eexists. split; [|intros r F; assert (K := ev_keyword I_structure_statement "structure" I_shape_members n _ p eq_refl S (braces_solid _) E r); body_alts K].
      unfold SmithyShapeFacts.body_of, SmithyParse.body_statement. cbn [p_rule]. rewrite R. reflexivity.
    - eexists. split; [|intros r F; assert (K := ev_keyword I_union_statement "union" I_shape_members n _ p eq_refl S (braces_solid _) E r); body_alts K].
      unfold SmithyShapeFacts.body_of, SmithyParse.body_statement. cbn [p_rule]. rewrite R. reflexivity.
  Qed.

  (** *** Fields *)
  Definition field_value {F} (entry : F -> string * idl_node) (f : F) : str * value := (lit (fst (entry f)), node_value (snd (entry f))).
  Lemma distinct_keys_of {V} (l : list (str * V)) : NoDup (map fst l) -> distinct str_eqb l.
  Proof.
    induction l as [|[k v] l IH]; intros N; [exact I|]. inversion N as [|? ? NI N']; subst. split; [|apply IH, N'].
    intros k' v' IN. destruct (str_eqb k' k) eqn:E; [|reflexivity]. exfalso. apply NI. apply str_eqb_eq in E. subst k'. apply in_map_iff. exists (k, v'). auto.
  Qed.
  Lemma object_distinct (l : list (str * value)) : NoDup (map fst l) -> object_of l = l.
  Proof. intros N. unfold object_of, hm_from_list. exact (insert_all _ str_eqb_equiv l [] (distinct_keys_of l N)). Qed.
  Lemma fields_block {F} (entry : F -> string * idl_node) fs :
    (forall f, short_identifier (lit (fst (entry f)))) -> fields_ok entry fs ->
    exists p, (p_rule p = I_node_object /\ idl_object f64_parse p = Ok (map (field_value entry) fs))
      /\ forall r, ev false (icall I_node_object) (braces (map (fun f => field_text (entry f)) fs) ++ r) (Some ([p], r)).
  Proof.
    intros SK [ND NO]. set (es := map (fun f => (Plain (lit (fst (entry f))), snd (entry f))) fs).
    assert (EO : entries_ok es).
    { unfold entries_ok, es. rewrite Forall_map. revert NO. apply Forall_impl. intros f O. split; [apply SK|exact O]. }
    destruct (object_inside_n f64_parse _ (entries_of_ok f64_parse _ EO)) as (inner & F2 & E).
    specialize (E line_end line_end_blank ltac:(discriminate)). rewrite entry_of_texts in E.
    assert (TX : map node_entry_text es = map (fun f => field_text (entry f)) fs) by (unfold es; rewrite map_map; reflexivity). rewrite TX in E.
    eexists (Pair I_node_object _ inner). split; [split; [reflexivity|]|exact E].
    rewrite (object_read_n f64_parse _ inner _ F2), entry_of_values. f_equal. unfold es. rewrite map_map. apply object_distinct.
    rewrite map_map. cbn [fst idl_key_text]. rewrite <- (map_map (fun f => fst (entry f)) lit). apply distinct_lits, ND.
  Qed.
  Lemma target_read_n r : value_ref_ok r -> target_of (VString (ref_text r)) = Ok (declared_name r).
  Proof. intros [O _]. destruct (ref_names _ O) as (_ & N & _). unfold target_of. cbn [as_string rbind]. rewrite N. reflexivity. Qed.
  Lemma ref_node r : node_ok (IRef r) -> value_ref_ok r. Proof. inversion 1; assumption. Qed.
  Lemma refs_nodes l : node_ok (refs_node l) -> Forall value_ref_ok l.
  Proof. inversion 1 as [| | | | | | |? F|]; subst. rewrite Forall_map in F. revert F. apply Forall_impl. exact ref_node. Qed.
  Lemma targets_read_n l : node_ok (refs_node l) -> targets_of (node_value (refs_node l)) = Ok (map declared_name l).
  Proof.
    intros O. apply refs_nodes in O. cbn [IdlSpec.node_value refs_node targets_of]. rewrite map_map. cbn [IdlSpec.node_value].
    induction O as [|r l R O IH]; [reflexivity|]. cbn [map map_result]. rewrite (target_read_n _ R), IH. reflexivity.
  Qed.
  Lemma target_read_v r : node_ok (IRef r) -> target_of (node_value (IRef r)) = Ok (declared_name r).
  Proof. intros O. apply target_read_n, ref_node, O. Qed.

  Lemma service_fold v ren fs : Forall (fun f => node_ok (snd (service_entry f))) fs -> forall ops rs,
    fold_result service_step (map (field_value service_entry) fs) (SvB v ops rs ren)
    = Ok (SvB v (ops ++ flat_map (fun f => match f with SvOperations l => map declared_name l | _ => [] end) fs)
              (rs ++ flat_map (fun f => match f with SvResources l => map declared_name l | _ => [] end) fs) ren).
  Proof.
    induction 1 as [|f fs O F IH]; intros ops rs; cbn [map fold_result flat_map]; [rewrite !app_nil_r; reflexivity|].
    destruct f as [t|l|l]; cbn [service_entry snd] in O; unfold field_value at 1; cbn [service_entry fst snd].
    - change (service_step (SvB v ops rs ren) (lit "version", node_value (IText t))) with (@Ok service_builder (SvB v ops rs ren)). cbn [rbind]. rewrite IH. reflexivity.
    - change (service_step (SvB v ops rs ren) (lit "operations", node_value (refs_node l)))
        with (l <- targets_of (node_value (refs_node l)) ;; Ok (SvB v (ops ++ l) rs ren)). rewrite (targets_read_n _ O). cbn [rbind]. rewrite IH, <- app_assoc. reflexivity.
    - change (service_step (SvB v ops rs ren) (lit "resources", node_value (refs_node l)))
        with (l <- targets_of (node_value (refs_node l)) ;; Ok (SvB v ops (rs ++ l) ren)). rewrite (targets_read_n _ O). cbn [rbind]. rewrite IH, <- app_assoc. reflexivity.
  Qed.
  Lemma version_found fs t : NoDup (map (fun f => fst (service_entry f)) fs) -> In (SvVersion t) fs ->
    hm_get str_eqb (lit "version") (map (field_value service_entry) fs) = Some (VString t)
    /\ last_of (fun f => match f with SvVersion t => Some t | _ => None end) fs = Some t.
  Proof.
    intros N I. apply in_split in I as (a & b & ->). rewrite map_app in N. cbn [map service_entry fst] in N. apply NoDup_remove_2 in N.
    assert (NA : forall f, In f (a ++ b) -> fst (service_entry f) <> "version"%string).
    { intros f IF E. apply N. rewrite <- map_app. apply in_map_iff. exists f. auto. }
    clear N. split.
    - rewrite map_app. cbn [map]. induction a as [|f a IH]; [reflexivity|]. cbn [map app hm_get]. unfold field_value at 1. cbn [fst].
      assert (X := NA f (or_introl eq_refl)). destruct f; [exfalso; apply X; reflexivity| |]; apply IH; intros g IG; apply NA; right; exact IG.
    - unfold last_of. rewrite fold_left_app. cbn [fold_left].
      assert (B : forall f, In f b -> fst (service_entry f) <> "version"%string) by (intros f IF; apply NA, in_or_app; right; exact IF).
      clear NA. induction b as [|f b IH]; [reflexivity|]. cbn [fold_left]. assert (X := B f (or_introl eq_refl)).
      destruct f; [exfalso; apply X; reflexivity| |]; apply IH; intros g IG; apply B; right; exact IG.
  Qed.
  Ltac short_word := apply short_lit; reflexivity.
  Lemma service_body_n n fs : short_identifier n -> idl_body_ok (DService fs) ->
    gives (icall I_shape_body) (keyword_text "service" n (map (fun f => field_text (service_entry f)) fs)) (body_of n (declared_body f64_parse (DService fs))).
  Proof.
    intros S (O & t & I). destruct (fields_block service_entry fs) as (p & [P V] & E); [intros []; short_word|exact O|].
    split; [split; [reflexivity|discriminate]|].
    eexists. split; [|intros r F; assert (K := ev_keyword I_service_statement "service" I_node_object n _ p eq_refl S (braces_solid _) E r); body_alts K].
    unfold SmithyShapeFacts.body_of, SmithyParse.body_statement. cbn [p_rule]. unfold service_statement. rewrite (object_read f64_parse _ _ n p _ P V). cbn [rbind snd fst].
    destruct O as [N O]. destruct (version_found fs t N I) as [G L]. rewrite G. cbn [as_string rbind]. rewrite (name_local _ S). cbn [unwrap rbind].
    rewrite (service_fold _ _ _ O). cbn [declared_body]. unfold declared_service. rewrite L. reflexivity.
  Qed.

  Definition later {F} (f : F -> option idl_ref) (fs : list F) (o : option idl_ref) : option idl_ref :=
    fold_left (fun o x => match f x with Some y => Some y | None => o end) fs o.
  Notation names_ o := (option_map declared_name o).
  Lemma operation_fold fs : Forall (fun f => node_ok (snd (operation_entry f))) fs -> forall i o er,
    fold_result operation_step (map (field_value operation_entry) fs) (OpB (names_ i) (names_ o) er)
    = Ok (OpB (names_ (later (fun f => match f with OpInput r => Some r | _ => None end) fs i))
              (names_ (later (fun f => match f with OpOutput r => Some r | _ => None end) fs o))
              (er ++ flat_map (fun f => match f with OpErrors l => map declared_name l | _ => [] end) fs)).
  Proof.
    unfold later. induction 1 as [|f fs O F IH]; intros i o er; cbn [map fold_result flat_map fold_left]; [rewrite !app_nil_r; reflexivity|].
    destruct f as [r|r|l]; cbn [operation_entry snd] in O; unfold field_value at 1; cbn [operation_entry fst snd].
    - change (operation_step (OpB (names_ i) (names_ o) er) (lit "input", node_value (IRef r)))
        with (t <- target_of (node_value (IRef r)) ;; Ok (OpB (Some t) (names_ o) er)). rewrite (target_read_v _ O). cbn [rbind]. apply (IH (Some r) o er).
    - change (operation_step (OpB (names_ i) (names_ o) er) (lit "output", node_value (IRef r)))
        with (t <- target_of (node_value (IRef r)) ;; Ok (OpB (names_ i) (Some t) er)). rewrite (target_read_v _ O). cbn [rbind]. apply (IH i (Some r) er).
    - change (operation_step (OpB (names_ i) (names_ o) er) (lit "errors", node_value (refs_node l)))
        with (l <- targets_of (node_value (refs_node l)) ;; Ok (OpB (names_ i) (names_ o) (er ++ l))). rewrite (targets_read_n _ O). cbn [rbind]. rewrite IH, <- app_assoc. reflexivity.
  Qed.
  Lemma operation_body_n n fs : short_identifier n -> idl_body_ok (DOperation fs) ->
    gives (icall I_shape_body) (keyword_text "operation" n (map (fun f => field_text (operation_entry f)) fs)) (body_of n (declared_body f64_parse (DOperation fs))).
  Proof.
    intros S O. destruct (fields_block operation_entry fs) as (p & [P V] & E); [intros []; short_word|exact O|].
    split; [split; [reflexivity|discriminate]|].
    eexists. split; [|intros r F; assert (K := ev_keyword I_operation_statement "operation" I_node_object n _ p eq_refl S (braces_solid _) E r); body_alts K].
    unfold SmithyShapeFacts.body_of, SmithyParse.body_statement. cbn [p_rule]. unfold operation_statement. rewrite (object_read f64_parse _ _ n p _ P V). cbn [rbind snd fst].
    rewrite (name_local _ S). cbn [unwrap rbind]. assert (Q := operation_fold fs (proj2 O) None None []). cbn [option_map] in Q. rewrite Q. reflexivity.
  Qed.

  Lemma ids_fold l : Forall (fun e => short_identifier (fst e) /\ value_ref_ok (snd e)) l -> forall acc,
    fold_result (fun ids (x : str * value) =>
                   t <- as_string (snd x) ;; i <- unwrap (ident_from_str (fst x)) ;; n <- unwrap (shape_name_from_str t) ;;
                   Ok (hm_insert ident_key_eqb i n ids)) (map (fun e => (fst e, VString (ref_text (snd e)))) l) acc
    = Ok (fold_left (fun m kv => hm_insert ident_key_eqb (fst kv) (snd kv) m) (map (fun e => (fst e, declared_name (snd e))) l) acc).
  Proof.
    induction 1 as [|[k r] l [K [R _]] F IH]; intros acc; [reflexivity|]. cbn [map fold_result fold_left fst snd] in *.
    destruct (ref_names _ R) as (_ & N & _). cbn [as_string rbind]. rewrite (SelectorFacts.short_from_str _ K), N. cbn [unwrap rbind]. apply IH.
  Qed.
  Definition put_all (l : list (str * shape_name)) (m : list (str * shape_name)) :=
    fold_left (fun m kv => hm_insert ident_key_eqb (fst kv) (snd kv) m) l m.
  Lemma resource_fold fs : Forall (fun f => node_ok (snd (resource_entry f))) fs -> (forall l, In (RsIdentifiers l) fs -> NoDup (map fst l)) ->
    forall ids c pu re u d ls ops cops rs,
    fold_result resource_step (map (field_value resource_entry) fs) (RsB ids (names_ c) (names_ pu) (names_ re) (names_ u) (names_ d) (names_ ls) ops cops rs)
    = Ok (RsB (put_all (flat_map (fun f => match f with RsIdentifiers l => map (fun e => (fst e, declared_name (snd e))) l | _ => [] end) fs) ids)
        (names_ (later (fun f => match f with RsCreate r => Some r | _ => None end) fs c))
        (names_ (later (fun f => match f with RsPut r => Some r | _ => None end) fs pu))
        (names_ (later (fun f => match f with RsRead r => Some r | _ => None end) fs re))
        (names_ (later (fun f => match f with RsUpdate r => Some r | _ => None end) fs u))
        (names_ (later (fun f => match f with RsDelete r => Some r | _ => None end) fs d))
        (names_ (later (fun f => match f with RsList r => Some r | _ => None end) fs ls))
        (ops ++ flat_map (fun f => match f with RsOperations l => map declared_name l | _ => [] end) fs)
        (cops ++ flat_map (fun f => match f with RsCollectionOperations l => map declared_name l | _ => [] end) fs)
        (rs ++ flat_map (fun f => match f with RsResources l => map declared_name l | _ => [] end) fs)).
  Proof.
    unfold later. induction 1 as [|f fs O F IH]; intros ND ids c pu re u d ls ops cops rs; cbn [map fold_result flat_map fold_left app]; [rewrite !app_nil_r; reflexivity|].
    specialize (IH (fun l I => ND l (or_intror I))).
    destruct f as [l|r|r|r|r|r|r|l|l|l]; cbn [resource_entry snd] in O; unfold field_value at 1; cbn [resource_entry fst snd].
    - assert (N := ND l (or_introl eq_refl)).
      assert (V : node_value (IObject (map (fun e => (Plain (fst e), IRef (snd e))) l)) = VObject (map (fun e => (fst e, VString (ref_text (snd e)))) l)).
      { cbn [IdlSpec.node_value]. rewrite map_map. cbn [fst snd idl_key_text IdlSpec.node_value]. f_equal. apply object_distinct. rewrite map_map. exact N. }
      rewrite V. assert (KO : Forall (fun e => short_identifier (fst e) /\ value_ref_ok (snd e)) l).
      { inversion O as [| | | | | | | |l0 FO]; subst. rewrite Forall_map in FO. revert FO. apply Forall_impl. intros e [K R]. split; [exact K|apply ref_node, R]. }
      unfold resource_step at 1. change (str_eqb (fst (lit "identifiers", VObject (map (fun e => (fst e, VString (ref_text (snd e)))) l))) (lit "identifiers")) with true.
      cbv iota. cbn [snd]. rewrite (ids_fold _ KO). cbn [rbind]. rewrite IH. unfold put_all. rewrite fold_left_app. reflexivity.
    - match goal with |- context [resource_step ?s ?e] => change (resource_step s e)
        with (t <- target_of (node_value (IRef r)) ;; Ok (RsB ids (Some t) (names_ pu) (names_ re) (names_ u) (names_ d) (names_ ls) ops cops rs)) end.
      rewrite (target_read_v _ O). cbn [rbind]. apply (IH ids (Some r)).
    - match goal with |- context [resource_step ?s ?e] => change (resource_step s e)
        with (t <- target_of (node_value (IRef r)) ;; Ok (RsB ids (names_ c) (Some t) (names_ re) (names_ u) (names_ d) (names_ ls) ops cops rs)) end.
      rewrite (target_read_v _ O). cbn [rbind]. apply (IH ids c (Some r)).
    - match goal with |- context [resource_step ?s ?e] => change (resource_step s e)
        with (t <- target_of (node_value (IRef r)) ;; Ok (RsB ids (names_ c) (names_ pu) (Some t) (names_ u) (names_ d) (names_ ls) ops cops rs)) end.
      rewrite (target_read_v _ O). cbn [rbind]. apply (IH ids c pu (Some r)).
    - match goal with |- context [resource_step ?s ?e] => change (resource_step s e)
        with (t <- target_of (node_value (IRef r)) ;; Ok (RsB ids (names_ c) (names_ pu) (names_ re) (Some t) (names_ d) (names_ ls) ops cops rs)) end.
      rewrite (target_read_v _ O). cbn [rbind]. apply (IH ids c pu re (Some r)).
    - match goal with |- context [resource_step ?s ?e] => change (resource_step s e)
        with (t <- target_of (node_value (IRef r)) ;; Ok (RsB ids (names_ c) (names_ pu) (names_ re) (names_ u) (Some t) (names_ ls) ops cops rs)) end.
      rewrite (target_read_v _ O). cbn [rbind]. apply (IH ids c pu re u (Some r)).
    - match goal with |- context [resource_step ?s ?e] => change (resource_step s e)
        with (t <- target_of (node_value (IRef r)) ;; Ok (RsB ids (names_ c) (names_ pu) (names_ re) (names_ u) (names_ d) (Some t) ops cops rs)) end.
      rewrite (target_read_v _ O). cbn [rbind]. apply (IH ids c pu re u d (Some r)).
    - match goal with |- context [resource_step ?s ?e] => change (resource_step s e)
        with (ts <- targets_of (node_value (refs_node l)) ;; Ok (RsB ids (names_ c) (names_ pu) (names_ re) (names_ u) (names_ d) (names_ ls) (ops ++ ts) cops rs)) end.
      rewrite (targets_read_n _ O). cbn [rbind]. rewrite IH, <- app_assoc. reflexivity.
    - match goal with |- context [resource_step ?s ?e] => change (resource_step s e)
        with (ts <- targets_of (node_value (refs_node l)) ;; Ok (RsB ids (names_ c) (names_ pu) (names_ re) (names_ u) (names_ d) (names_ ls) ops (cops ++ ts) rs)) end.
      rewrite (targets_read_n _ O). cbn [rbind]. rewrite IH, <- app_assoc. reflexivity.
    - match goal with |- context [resource_step ?s ?e] => change (resource_step s e)
        with (ts <- targets_of (node_value (refs_node l)) ;; Ok (RsB ids (names_ c) (names_ pu) (names_ re) (names_ u) (names_ d) (names_ ls) ops cops (rs ++ ts))) end.
      rewrite (targets_read_n _ O). cbn [rbind]. rewrite IH, <- app_assoc. reflexivity.
  Qed.
  Lemma resource_body_n n fs : short_identifier n -> idl_body_ok (DResource fs) ->
    gives (icall I_shape_body) (keyword_text "resource" n (map (fun f => field_text (resource_entry f)) fs)) (body_of n (declared_body f64_parse (DResource fs))).
  Proof.
    intros S [O ND]. destruct (fields_block resource_entry fs) as (p & [P V] & E); [intros []; short_word|exact O|].
    split; [split; [reflexivity|discriminate]|].
    eexists. split; [|intros r F; assert (K := ev_keyword I_resource_statement "resource" I_node_object n _ p eq_refl S (braces_solid _) E r); body_alts K].
    unfold SmithyShapeFacts.body_of, SmithyParse.body_statement. cbn [p_rule]. unfold resource_statement. rewrite (object_read f64_parse _ _ n p _ P V). cbn [rbind snd fst].
    rewrite (name_local _ S). cbn [unwrap rbind].
    assert (Q := resource_fold fs (proj2 O) ND [] None None None None None None [] [] []). cbn [option_map] in Q. rewrite Q. reflexivity.
  Qed.
  Lemma gives_body_n n b : short_identifier n -> idl_body_ok b -> gives (icall I_shape_body) (idl_body_text n b) (body_of n (declared_body f64_parse b)).
  Proof.
    intros S O. destruct b as [s|ms|ms|ms|ms|ms|fs|fs|fs]; cbn [idl_body_text].
    - rewrite simple_word_text. apply simple_body, S.
    - apply (list_body_n _ _ S O).
    - apply (list_body_n _ _ S O).
    - apply map_body_n; assumption.
    - apply (structure_body_n _ _ S O).
    - apply (structure_body_n _ _ S O).
    - apply service_body_n; assumption.
    - apply operation_body_n; assumption.
    - apply resource_body_n; assumption.
  Qed.
  Lemma body_named n b : named (idl_body_text n b) /\ forall r, ev false (icall I_use_statement) (idl_body_text n b ++ r) None.
  Proof.
    destruct b as [s|ms|ms|ms|ms|ms|fs|fs|fs]; try (split; [left; reflexivity|intros r; ev_compute]).
    destruct s; (split; [left; reflexivity|intros r; ev_compute]).
  Qed.
End Facts.
