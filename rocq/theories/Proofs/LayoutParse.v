(** The text of the rules with gaps inside is never looked at; so documents with the same tokens mean the same. *)
From Verif.Model Require Import SmithyParse.
From Verif.Model Require Import SelectorParse.
From Verif.Spec Require Import SmithySpec LayoutSpec.
From Verif.Proofs Require Import BaseFacts PegFacts SmithyGrammarFacts LayoutFacts LayoutSim.

Lemma pair_induction (P : ipair -> Prop) : (forall q t l, Forall P l -> P (Pair q t l)) -> forall p, P p.
Proof.
  intros H. fix IH 1. intros [q t l]. apply H. induction l as [|x l IL]; constructor; [apply IH|exact IL].
Qed.
Lemma fold_map {S A} (f : S -> A -> result S) g l : (forall x, In x l -> forall s, f s (g x) = f s x) ->
  forall s, fold_result f (map g l) s = fold_result f l s.
Proof.
  intros H. induction l as [|x l IH]; intros s; [reflexivity|]. cbn [map fold_result]. rewrite (H x (or_introl eq_refl)).
  destruct (f s x); try reflexivity. apply IH. intros y Y. apply H. right. exact Y.
Qed.
Lemma fold_ext {S A} (f g : S -> A -> result S) l : (forall x, In x l -> forall s, f s x = g s x) ->
  forall s, fold_result f l s = fold_result g l s.
Proof.
  intros H. induction l as [|x l IH]; intros s; [reflexivity|]. cbn [fold_result]. rewrite (H x (or_introl eq_refl)).
  destruct (g s x); try reflexivity. apply IH. intros y Y. apply H. right. exact Y.
Qed.
Lemma erase_rule p : p_rule (erase p) = p_rule p. Proof. destruct p. reflexivity. Qed.
Lemma erase_inner p : p_inner (erase p) = map erase (p_inner p). Proof. destruct p. reflexivity. Qed.
Lemma erase_text p : leaf (p_rule p) = true -> p_text (erase p) = p_text p. Proof. destruct p. cbn. intros ->. reflexivity. Qed.

Section Parse.
  Variable f64_parse : str -> Z.
  Context `{Hasher}.
  Notation idl_value := (idl_value f64_parse).

  Lemma erase_idl_text r l : (forall q, r q = true -> leaf q = true) -> idl_text r (map erase l) = idl_text r l.
  Proof.
    intros R. destruct l as [|p l]; [reflexivity|]. cbn [map idl_text]. rewrite erase_rule. destruct (r (p_rule p)) eqn:E; [|reflexivity].
    rewrite erase_text by (apply R, E). reflexivity.
  Qed.
  Lemma erase_kvp_step p s : (idl_value (erase p) = idl_value p) -> kvp_step idl_value s (erase p) = kvp_step idl_value s p.
  Proof.
    intros E. destruct p as [q t l]. cbn [erase] in *. unfold kvp_step. destruct q; try reflexivity. cbn [leaf] in *. rewrite E. reflexivity.
  Qed.
  Lemma erase_value_deep p : idl_value (erase p) = idl_value p /\ Forall (fun x => idl_value (erase x) = idl_value x /\
     Forall (fun y => idl_value (erase y) = idl_value y) (p_inner x)) (p_inner p).
  Proof.
    assert (S : forall n p, (fix size p := match p with Pair _ _ l => S (list_sum (map size l)) end) p <= n -> idl_value (erase p) = idl_value p).
    { set (size := fix size p := match p with Pair _ _ l => S (list_sum (map size l)) end).
      assert (SI : forall x l, In x l -> size x <= list_sum (map size l)).
      { induction l as [|y l IH]; [intros []|]. intros [-> |I]; cbn [map list_sum fold_right] in *; [lia|]. specialize (IH I). unfold list_sum in *. lia. }
      assert (SE : forall q t l, size (Pair q t l) = S (list_sum (map size l))) by reflexivity.
      clearbody size. induction n as [|n IH]; intros [q t l]; rewrite SE; intros Z; [lia|].
      cbn [erase]. destruct l as [|[r t1 inner] l]; [reflexivity|].
      assert (Z1 := SI _ _ (or_introl eq_refl : In (Pair r t1 inner) (Pair r t1 inner :: l))). rewrite SE in Z1.
      cbn [map erase SmithyParse.idl_value]. destruct r; try reflexivity; cbn [leaf].
      - f_equal. rewrite fold_map; [reflexivity|]. intros [q2 t2 l2] I s. assert (Z2 := SI _ _ I).
        cbn [erase]. destruct q2; try reflexivity.
        change (Pair I_node_value (if leaf I_node_value then t2 else []) (map erase l2)) with (erase (Pair I_node_value t2 l2)).
        rewrite (IH (Pair I_node_value t2 l2)) by lia. reflexivity.
      - f_equal. rewrite fold_map; [reflexivity|]. intros [q2 t2 l2] I s. assert (Z2 := SI _ _ I). rewrite SE in Z2.
        cbn [erase]. destruct q2; try reflexivity. rewrite fold_map; [reflexivity|]. intros x X s0. assert (Z3 := SI _ _ X).
        apply erase_kvp_step, IH. lia.
      - apply erase_idl_text. intros []; auto; discriminate.
      - apply erase_idl_text. intros []; auto; discriminate. }
    split; [exact (S _ _ (le_n _))|]. apply Forall_forall. intros x _. split; [exact (S _ _ (le_n _))|].
    apply Forall_forall. intros y _. exact (S _ _ (le_n _)).
  Qed.
  Lemma erase_value p : idl_value (erase p) = idl_value p. Proof. exact (proj1 (erase_value_deep p)). Qed.

  Lemma erase_kvp p : idl_kvp f64_parse (erase p) = idl_kvp f64_parse p.
  Proof. unfold idl_kvp. rewrite erase_inner, fold_map; [reflexivity|]. intros x _ s. apply erase_kvp_step, erase_value. Qed.
  Lemma erase_object p : idl_object f64_parse (erase p) = idl_object f64_parse p.
  Proof. unfold idl_object. rewrite erase_inner, fold_map; [reflexivity|]. intros x _ s. rewrite erase_rule, erase_kvp. reflexivity. Qed.
  Lemma erase_statements r p : idl_statements f64_parse r (erase p) = idl_statements f64_parse r p.
  Proof. unfold idl_statements. rewrite erase_inner, fold_map; [reflexivity|]. intros x _ s. rewrite erase_rule, erase_kvp. reflexivity. Qed.

  Ltac by_rule x := rewrite erase_rule; destruct (p_rule x) eqn:?; try reflexivity.
  Ltac texts := rewrite ?erase_text by (match goal with H : p_rule _ = _ |- _ => rewrite H end; reflexivity).

  Lemma erase_trait_kvp p : trait_kvp f64_parse (erase p) = trait_kvp f64_parse p.
  Proof.
    unfold trait_kvp. rewrite erase_inner, fold_map; [reflexivity|]. intros x _ s. unfold trait_kvp_step. by_rule x; texts; try reflexivity.
    - rewrite erase_value. reflexivity.
    - rewrite erase_inner, fold_map; [reflexivity|]. intros y _ s0. by_rule y; texts; reflexivity.
  Qed.
  Lemma erase_a_trait p : a_trait f64_parse (erase p) = a_trait f64_parse p.
  Proof.
    unfold a_trait. rewrite erase_inner, fold_map; [reflexivity|]. intros x _ [[id v] ms]. unfold a_trait_step. by_rule x; texts; try reflexivity.
    - rewrite erase_value. reflexivity.
    - rewrite erase_trait_kvp. reflexivity.
  Qed.
  Lemma erase_traits p : trait_statements f64_parse (erase p) = trait_statements f64_parse p.
  Proof. unfold trait_statements. rewrite erase_inner, fold_map; [reflexivity|]. intros x _ s. by_rule x. rewrite erase_a_trait. reflexivity. Qed.
  Lemma erase_simple p : simple_statement (erase p) = simple_statement p.
  Proof. unfold simple_statement. rewrite erase_inner, fold_map; [reflexivity|]. intros x _ s. by_rule x; texts; reflexivity. Qed.
  Lemma erase_member p : shape_member f64_parse (erase p) = shape_member f64_parse p.
  Proof.
    unfold shape_member. rewrite erase_inner, fold_map; [reflexivity|]. intros x _ s. unfold member_step, documentation_text. by_rule x; texts; try reflexivity.
    rewrite erase_traits. reflexivity.
  Qed.
  Lemma erase_members p : shape_members f64_parse (erase p) = shape_members f64_parse p.
  Proof. unfold shape_members. rewrite erase_inner, fold_map; [reflexivity|]. intros x _ s. by_rule x. rewrite erase_member. reflexivity. Qed.
  Lemma erase_membered p : membered_statement f64_parse (erase p) = membered_statement f64_parse p.
  Proof.
    unfold membered_statement. rewrite erase_inner. destruct (p_inner p) as [|n more]; [reflexivity|]. cbn [map next rbind]. by_rule n. texts.
    destruct more as [|q more]; [reflexivity|]. cbn [map next rbind]. by_rule q. rewrite erase_members. reflexivity.
  Qed.
  Lemma erase_id_and_object p : id_and_object f64_parse (erase p) = id_and_object f64_parse p.
  Proof.
    unfold id_and_object. rewrite erase_inner, fold_map; [reflexivity|]. intros x _ s. by_rule x; texts; try reflexivity. rewrite erase_object. reflexivity.
  Qed.
  Lemma erase_body p : body_statement f64_parse (erase p) = body_statement f64_parse p.
  Proof.
    unfold body_statement, list_statement, map_statement, members_statement, service_statement, operation_statement, resource_statement.
    by_rule p; rewrite ?erase_simple, ?erase_membered, ?erase_id_and_object; reflexivity.
  Qed.
  Lemma erase_statement p b : shape_statement f64_parse (erase p) b = shape_statement f64_parse p b.
  Proof.
    unfold shape_statement. rewrite erase_inner, fold_map; [reflexivity|]. intros x _ [[doc ts] bb]. unfold statement_step, documentation_text.
    rewrite erase_body. by_rule x; texts; try reflexivity. rewrite erase_traits. reflexivity.
  Qed.
  Lemma erase_shape_statements p b : shape_statements f64_parse (erase p) b = shape_statements f64_parse p b.
  Proof. unfold shape_statements. rewrite erase_inner, fold_map; [reflexivity|]. intros x _ s. by_rule x. apply erase_statement. Qed.
  Lemma erase_use p b : use_section (erase p) b = use_section p b.
  Proof.
    unfold use_section. rewrite erase_inner, fold_map; [reflexivity|]. intros x _ s. by_rule x. rewrite erase_inner.
    destruct (p_inner x) as [|i l]; [reflexivity|]. cbn [map next rbind]. by_rule i. texts. reflexivity.
  Qed.
  Lemma erase_namespace v p : namespace_statement v (erase p) = namespace_statement v p.
  Proof.
    unfold namespace_statement. rewrite erase_inner. destruct (p_inner p) as [|i l]; [reflexivity|]. cbn [map next rbind]. by_rule i. texts. reflexivity.
  Qed.
  Lemma erase_section v p : shape_section f64_parse v (erase p) = shape_section f64_parse v p.
  Proof.
    unfold shape_section. rewrite erase_inner, fold_map; [reflexivity|]. intros x _ s. by_rule x.
    - rewrite erase_namespace. reflexivity.
    - destruct s; [|reflexivity]. rewrite erase_use. reflexivity.
    - destruct s; [|reflexivity]. rewrite erase_shape_statements. reflexivity.
  Qed.
  Lemma erase_next_section {A} r (f : ipair -> result A) l : (forall p, f (erase p) = f p) ->
    next_section r f (map erase l) = match next_section r f l with Ok x => Ok (fst x, map erase (snd x)) | Err e => Err e | Panic => Panic end.
  Proof.
    intros E. unfold next_section. destruct l as [|p l]; [reflexivity|]. cbn [map next rbind]. rewrite erase_rule, E. destruct (r (p_rule p)); [|reflexivity].
    destruct (f p); reflexivity.
  Qed.
  Lemma erase_idl p : parse_idl f64_parse (erase p) = parse_idl f64_parse p.
  Proof.
    unfold parse_idl. by_rule p. rewrite erase_inner, erase_next_section by (apply erase_statements).
    destruct (next_section _ (control_section f64_parse) (p_inner p)) as [c| |]; cbn [rbind fst snd]; [|reflexivity|reflexivity].
    destruct (match hm_get str_eqb (lit "version") (fst c) with Some (VString v) => version_from_str v | _ => Ok V10 end) as [v| |]; cbn [rbind]; [|reflexivity|reflexivity].
    rewrite erase_next_section by (apply erase_statements).
    destruct (next_section _ (metadata_section f64_parse) (snd c)) as [m| |]; cbn [rbind fst snd]; [|reflexivity|reflexivity].
    rewrite erase_next_section by (apply erase_section).
    destruct (next_section _ (shape_section f64_parse v) (snd m)) as [s| |]; reflexivity.
  Qed.

  Theorem layout_is_free s t : same_tokens s t -> parse_model f64_parse s = parse_model f64_parse t.
  Proof.
    intros [g g' s0 t0 L L' S].
    assert (R : rel Loose (g ++ s0) (g' ++ t0)) by (exists g, g', s0, t0; auto).
    revert R. generalize (g ++ s0) (g' ++ t0). clear. intros s t R.
    unfold parse_model, parse_rule.
    destruct (smithy_total false I_idl s (smithy_fuel s) (le_n _)) as [r F].
    destruct (smithy_total false I_idl t (smithy_fuel t) (le_n _)) as [r2 F2].
    destruct (sim _ false (PCall I_idl) Loose Sync _ _ _ eq_refl R F) as (r' & E & A).
    rewrite (evals_det _ _ _ _ _ _ E (ev_run _ _ _ _ _ _ F2)) in A. rewrite F, F2. clear E F F2.
    destruct r as [[ps s1]|], r2 as [[ps' t1]|]; try contradiction; [|reflexivity]. destruct A as (EP & _ & _).
    destruct ps as [|p ps], ps' as [|p' ps']; try discriminate EP; [reflexivity|]. cbn [next rbind fst]. cbn [map] in EP. injection EP as EP _.
    rewrite <- (erase_idl p), <- (erase_idl p'), EP. reflexivity.
  Qed.
End Parse.
