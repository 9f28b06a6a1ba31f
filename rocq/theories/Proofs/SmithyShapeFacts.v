(** Shape statements of the Smithy IDL: what is written is read back. *)
From Verif.Model Require Import SelectorParse SmithyParse SmithyWrite.
From Verif.Spec Require Import IdentitySpec SmithySpec.
From Verif.Proofs Require Import BaseFacts HashMapFacts IdentityFacts ValueFacts PegFacts SmithyGrammarFacts SmithyValueFacts SmithyTraitFacts.
From Verif.Proofs Require ReorderFacts.
From Verif.Proofs Require SelectorFacts SelectorGrammarFacts.

(** ** Layout *)
Definition lines (ind : str) (l : list str) : str := concat (map (fun x => ind ++ x ++ nl) l).
Lemma nl_blank : blank nl. Proof. repeat constructor. Qed.
Lemma indent_blank : blank indent. Proof. repeat constructor. Qed.
Lemma blank_app a b : blank a -> blank b -> blank (a ++ b).
Proof. unfold blank. intros A B. apply Forall_app. auto. Qed.
Lemma lines_app ind a b : lines ind (a ++ b) = lines ind a ++ lines ind b.
Proof. unfold lines. rewrite map_app, concat_app. reflexivity. Qed.
Definition lead (ind : str) (l : list str) : str := match l with [] => nl | _ => nl ++ ind end.
Definition trail (l : list str) : str := match l with [] => [] | _ => nl end.
Lemma nl_lines ind l : nl ++ lines ind l = lead ind l ++ join (nl ++ ind) l ++ trail l.
Proof.
  destruct l as [|x l]; [reflexivity|]. cbn [lead trail]. rewrite join_prefixed. unfold lines. cbn [map concat]. rewrite <- !app_assoc.
  do 3 f_equal. revert x. induction l as [|y l IH]; intros x; [reflexivity|]. unfold prefixed. cbn [map concat]. rewrite <- !app_assoc.
  do 3 f_equal. apply (IH y).
Qed.
Lemma block_lines ind l tail : lit "{" ++ nl ++ lines ind l ++ tail ++ lit "}" =
  block_text (nl ++ ind) (lead ind l) (trail l ++ tail) l.
Proof. unfold block_text. rewrite (app_assoc nl), nl_lines, <- !app_assoc. reflexivity. Qed.
Lemma lead_blank ind l : blank ind -> blank (lead ind l).
Proof. intros B. destruct l; [apply nl_blank|]. apply blank_app; [apply nl_blank|exact B]. Qed.
Lemma trail_blank l : blank (trail l).
Proof. destruct l; [constructor|apply nl_blank]. Qed.
Lemma nl_sep ind : blank ind -> blank (nl ++ ind) /\ nl ++ ind <> [].
Proof. intros B. split; [apply blank_app; [apply nl_blank|exact B]|discriminate]. Qed.
Lemma traits_lines ind l x : lines ind l ++ ind ++ x = ind ++ suffixed (nl ++ ind) l ++ x.
Proof.
  induction l as [|t l IH]; [reflexivity|]. unfold lines, suffixed in *. cbn [map concat]. rewrite <- !app_assoc. f_equal. f_equal. f_equal. exact IH.
Qed.

Section Facts.
  Variables (f64_str : Z -> str) (debug_str : str -> str) (f64_parse : str -> Z).
  Context `{Hasher}.
  Variables (ns : str) (m : model).
  Notation value_writable := (value_writable f64_str debug_str f64_parse).
  Notation write_value := (write_value f64_str debug_str).
  Notation write_trait := (write_trait f64_str debug_str ns).
  Notation write_member := (write_member f64_str debug_str ns).
  Notation write_body := (write_body f64_str debug_str ns).
  Notation body_writable := (body_writable f64_str debug_str f64_parse ns m).
  Notation traits_writable := (traits_writable f64_str debug_str f64_parse ns m).
  Notation trait_writable := (trait_writable f64_str debug_str f64_parse ns m).
  Notation members_writable := (members_writable f64_str debug_str f64_parse ns m).
  Notation local := (local ns m).
  Notation local_value := (local_value ns m).
  Notation idl_value := (idl_value f64_parse).
  Notation reads := (reads f64_parse).
  Notation a_trait := (a_trait f64_parse).
  Notation body_statement := (body_statement f64_parse).

  (** ** The builders that come out *)
  Definition tref (id : shape_id) : shape_name :=
    if ns_eqb (sid_ns id) ns || ns_eqb (sid_ns id) prelude_ns then Local (sid_name id) else Qualified id.
  Definition tb (t : shape_id * option value) : trait_builder := TB (tref (fst t)) (Some (value_back (snd t))).
  Definition loc (id : shape_id) : shape_name := Local (sid_name id).
  Definition mb (x : member_shape) : member_builder := MB (ms_id x) (map tb (ms_traits x)) (loc (ms_target x)).
  Definition bb (k : shape_kind) : builder_body :=
    match k with
    | KSimple s => BSimple s
    | KList x => BList (MB (lit "member") [] (Qualified (ms_target x)))
    | KSet x => BSet (MB (lit "member") [] (Qualified (ms_target x)))
    | KMap k v => BMap (MB (lit "key") [] (loc (ms_target k))) (MB (lit "value") [] (loc (ms_target v)))
    | KStructure ms => BStructure (map (fun e => mb (snd e)) ms)
    | KUnion ms => BUnion (map (fun e => mb (snd e)) ms)
    | KService sv => BService (SvB (sv_version sv) (map loc (sv_operations sv)) (map loc (sv_resources sv)) [])
    | KOperation o => BOperation (OpB (option_map loc (op_input o)) (option_map loc (op_output o)) (map loc (op_errors o)))
    | KResource r =>
        BResource (RsB (map (fun e => (fst e, loc (snd e))) (rs_identifiers r)) (option_map loc (rs_create r))
          (option_map loc (rs_put r)) (option_map loc (rs_read r)) (option_map loc (rs_update r))
          (option_map loc (rs_delete r)) (option_map loc (rs_list r)) (map loc (rs_operations r))
          (map loc (rs_collection_operations r)) (map loc (rs_resources r)))
    | KUnresolved => BReference
    end.

  (** ** Traits *)
  Definition trait_text (t : shape_id * option value) : str := lit "@" ++ trait_name ns (fst t) ++ value_text f64_str debug_str (snd t).
  Lemma write_trait_text prefix t : write_trait prefix t = prefix ++ trait_text t ++ nl.
  Proof.
    unfold SmithyWrite.write_trait, trait_text. rewrite <- !app_assoc. do 3 f_equal. destruct (snd t); [|reflexivity]. cbn [value_text].
    rewrite <- !app_assoc. reflexivity.
  Qed.
  Lemma bare_spec id : ns_eqb (sid_ns id) ns || ns_eqb (sid_ns id) prelude_ns = true <-> bare_trait ns id.
  Proof. unfold bare_trait, same_name, ns_eqb. rewrite orb_true_iff, !str_eqb_eq. reflexivity. Qed.
  Lemma gives_trait_text t : trait_writable t ->
    gives (icall I_a_trait) (trait_text t) (fun p => p_rule p = I_a_trait /\ a_trait p = Ok (tb t)).
  Proof.
    intros [N V]. unfold trait_text, tb. apply (gives_trait f64_str debug_str f64_parse); [|exact V]. unfold trait_name, tref.
    destruct (ns_eqb (sid_ns (fst t)) ns || ns_eqb (sid_ns (fst t)) prelude_ns) eqn:B.
    - apply bare_spec in B. destruct N as [(_ & S & _)|[N _]]; [|contradiction]. apply names_local, S.
    - destruct N as [(N & _)|[_ A]]; [apply bare_spec in N; congruence|]. apply names_qualified, A.
  Qed.
  Definition trait_items (ts : traits) : list (str * trait_builder) := map (fun t => (trait_text t, tb t)) ts.
  Lemma trait_items_ok ts : traits_writable ts ->
    Forall (fun x => gives (icall I_a_trait) (fst x) (fun p => p_rule p = I_a_trait /\ a_trait p = Ok (snd x))) (trait_items ts).
  Proof.
    intros [_ F]. unfold trait_items. rewrite Forall_map. apply (Forall_impl _ gives_trait_text), F.
  Qed.

  (** ** Members *)
  Definition member_text (x : member_shape) : str :=
    suffixed (nl ++ indent) (map trait_text (ms_traits x)) ++ ms_id x ++ lit ": " ++ sid_name (ms_target x).
  Lemma write_member_text x : write_member x = indent ++ member_text x ++ nl.
  Proof.
    unfold SmithyWrite.write_member, member_text. rewrite (map_ext _ _ (write_trait_text indent)).
    change (concat (map (fun a => indent ++ trait_text a ++ nl) (ms_traits x))) with
      (concat (map (fun a => (fun y => indent ++ y ++ nl) (trait_text a)) (ms_traits x))).
    rewrite <- (map_map trait_text (fun y => indent ++ y ++ nl)). fold (lines indent (map trait_text (ms_traits x))).
    rewrite traits_lines, <- !app_assoc. reflexivity.
  Qed.
  Lemma member_unslashed x : short_identifier (ms_id x) -> unslashed (suffixed (nl ++ indent) (map fst (trait_items (ms_traits x))) ++ ms_id x).
  Proof. intros S. destruct (ms_traits x) as [|t ts]; [apply named_unslashed, short_named, S|]. discriminate. Qed.
  Lemma gives_member_text x : short_identifier (ms_id x) -> traits_writable (ms_traits x) -> local (ms_target x) ->
    gives (icall I_shape_member_kvp) (member_text x) (member_of f64_parse (mb x)).
  Proof.
    intros S T [L _]. assert (A := trait_items_ok _ T).
    assert (G := gives_member f64_parse (nl ++ indent) (trait_items (ms_traits x)) (ms_id x) (sid_name (ms_target x)) _
                   (proj1 (nl_sep _ indent_blank)) (proj2 (nl_sep _ indent_blank)) A S (names_local _ L) (member_unslashed x S)).
    unfold trait_items in G. rewrite !map_map in G. exact G.
  Qed.

  (** ** Keyword statements *)
  Definition statement_text (kw : string) (n b : str) : str := lit kw ++ lit " " ++ n ++ lit " " ++ b.
  Lemma ev_keyword q kw b n bt pb : smithy_rule q = keyword kw I_identifier b -> short_identifier n -> solid bt ->
    (forall r, ev false (icall b) (bt ++ r) (Some ([pb], r))) ->
    forall r, ev false (icall q) (statement_text kw n bt ++ r) (Some ([Pair q (statement_text kw n bt) [Pair I_identifier n []; pb]], r)).
  Proof.
    intros E S SB B r. refine (ev_normal q _ _ r _ _); rewrite E; [reflexivity|]. unfold keyword. cbn [snd PSeqs]. unfold statement_text. rewrite <- !app_assoc.
    refine (sq_tok _ (lit kw) _ _ _ _ _).
    refine (sq _ _ _ _ [] _ _ r (ev_ws _ (lit " ") _ _ (solid_no_ws _ _ (short_solid _ S))) _); [repeat constructor|].
    refine (sq _ _ _ _ [Pair I_identifier n []] _ [pb] r (ev_identifier false n _ S (follow_stop (lit " " ++ bt ++ r) eq_refl)) _).
    refine (sq _ _ _ _ [] _ _ r (ev_ws _ (lit " ") _ _ (solid_no_ws _ _ SB)) (B r)). repeat constructor.
  Qed.
  (** A statement with a body that is read as [k]. *)
  Definition body_of (n : str) (k : builder_body) (p : ipair) : Prop := body_statement p = Some (Ok (SB (Local n) [] k)).
  Ltac body_alts K := apply (ev_silent I_shape_body); [reflexivity|]; cbn [snd smithy_rule body_rules map PAlts];
    repeat first [apply ev_alt1; exact K | exact K | apply ev_alt2; [ev_compute|]].

  Lemma simple_body s n : short_identifier n -> gives (icall I_shape_body) (simple_display s ++ lit " " ++ n) (body_of n (BSimple s)).
  Proof.
    intros S. assert (SO : solid (simple_display s ++ lit " " ++ n)) by (destruct s; (split; [reflexivity|discriminate])).
    split; [exact SO|].
    set (q := match s with SBlob => I_type_blob | SBoolean => I_type_boolean | SDocument => I_type_document
      | SString => I_type_string | SByte => I_type_byte | SShort => I_type_short | SInteger => I_type_integer | SLong => I_type_long
      | SFloat => I_type_float | SDouble => I_type_double | SBigInteger => I_type_big_integer | SBigDecimal => I_type_big_decimal
      | STimestamp => I_type_timestamp end).
    exists (Pair I_simple_shape_statement (simple_display s ++ lit " " ++ n) [Pair q (simple_display s) []; Pair I_identifier n []]).
    split.
    - unfold body_of, SmithyParse.body_statement. cbn [p_rule]. unfold simple_statement. cbn [p_inner].
      unfold q. destruct s; cbn [fold_result p_rule simple_type p_text fst snd rbind both]; unfold simple_new; rewrite (name_local _ S); reflexivity.
    - intros r F. apply (ev_silent I_shape_body); [reflexivity|]. cbn [snd smithy_rule body_rules map PAlts]. apply ev_alt1.
      refine (ev_normal I_simple_shape_statement _ _ r eq_refl _). cbn [snd smithy_rule PSeqs]. rewrite <- !app_assoc.
      refine (sq _ _ _ _ [Pair q (simple_display s) []] _ [Pair I_identifier n []] r _ _).
      + apply (ev_silent I_simple_type_name); [reflexivity|]. cbn [snd smithy_rule type_rules map PAlts]. unfold q.
        destruct s; cbn [simple_display]; repeat first [apply ev_alt1; apply ev_token; reflexivity | apply ev_token; reflexivity | apply ev_alt2; [ev_compute|]].
      + refine (sq _ _ _ _ [] _ _ r (ev_ws _ (lit " ") _ _ (solid_no_ws _ _ (short_solid _ S))) (ev_identifier false n r S (follow_stop _ F))).
        repeat constructor.
  Qed.

  (** ** Statements with members *)
  Lemma members_block (l : list (str * member_builder)) :
    Forall (fun x => gives (icall I_shape_member_kvp) (fst x) (member_of f64_parse (snd x))) l ->
    exists p, (p_rule p = I_shape_members /\ shape_members f64_parse p = Ok (map snd l))
      /\ forall r, ev false (icall I_shape_members) ((lit "{" ++ nl ++ lines indent (map fst l) ++ lit "}") ++ r) (Some ([p], r)).
  Proof.
    intros A. destruct (ev_members f64_parse l (nl ++ indent) (lead indent (map fst l)) (trail (map fst l))) as (p & P & E); auto.
    - apply (nl_sep _ indent_blank).
    - apply (nl_sep _ indent_blank).
    - apply lead_blank, indent_blank.
    - apply trail_blank.
    - intros ->. reflexivity.
    - exists p. split; [exact P|]. intros r. assert (B := block_lines indent (map fst l) []). cbn [app] in B. rewrite app_nil_r in B. rewrite B. apply E.
  Qed.
  Definition open_text (content : str) : str := lit "{" ++ nl ++ content ++ lit "}".
  Lemma open_solid c : solid (open_text c). Proof. split; [reflexivity|discriminate]. Qed.
  Lemma membered_read q t n p ms : p_rule p = I_shape_members -> shape_members f64_parse p = Ok ms ->
    membered_statement f64_parse (Pair q t [Pair I_identifier n []; p]) = Ok (n, ms).
  Proof. intros P M. unfold membered_statement. cbn [p_inner next rbind p_rule p_text]. rewrite P, M. reflexivity. Qed.
  (** A member without traits. *)
  Lemma plain_member_gives n t x : short_identifier n -> names t x ->
    gives (icall I_shape_member_kvp) (key_text n t) (member_of f64_parse (MB n [] x)).
  Proof.
    intros S N. exact (gives_member f64_parse (nl ++ indent) [] n t x (proj1 (nl_sep _ indent_blank)) (proj2 (nl_sep _ indent_blank)) (Forall_nil _) S N (named_unslashed _ (short_named _ S))).
  Qed.
  Lemma short_lit c s : is_alpha c = true -> forallb word s = true -> short_identifier (c :: s).
  Proof.
    intros A W. exists c, s. split; [auto|]. split; [exact A|]. apply Forall_forall. intros x I. rewrite forallb_forall in W. specialize (W x I).
    unfold word in W. rewrite !orb_true_iff in W. destruct W as [[W|W]|W]; auto. right. right. apply Ascii.eqb_eq, W.
  Qed.
  Ltac short_word := apply short_lit; reflexivity.
  Lemma list_body n id : short_identifier n -> absolute id ->
    gives (icall I_shape_body) (statement_text "list" n (open_text (field "member" (sid_display id)))) (body_of n (BList (MB (lit "member") [] (Qualified id))))
    /\ gives (icall I_shape_body) (statement_text "set" n (open_text (field "member" (sid_display id)))) (body_of n (BSet (MB (lit "member") [] (Qualified id)))).
  Proof.
    intros S A. destruct (members_block [(key_text (lit "member") (sid_display id), MB (lit "member") [] (Qualified id))]) as (p & [P M] & E).
    { constructor; [|constructor]. apply plain_member_gives; [short_word|apply names_qualified, A]. }
    assert (TX : lit "{" ++ nl ++ lines indent (map fst [(key_text (lit "member") (sid_display id), MB (lit "member") [] (Qualified id))]) ++ lit "}"
                 = open_text (field "member" (sid_display id))).
    { unfold open_text, lines, field, key_text. cbn [map fst concat]. rewrite app_nil_r, <- !app_assoc. reflexivity. }
    rewrite TX in E. clear TX.
    assert (R : forall mk q t, list_statement f64_parse mk (Pair q t [Pair I_identifier n []; p]) = Ok (SB (Local n) [] (mk (MB (lit "member") [] (Qualified id))))).
    { intros mk q t. unfold list_statement. rewrite (membered_read q t n p _ P M). cbn [rbind snd fst map].
      change (ident_eqb (mb_name (MB (lit "member") [] (Qualified id))) (lit "member")) with true. cbv iota. rewrite (name_local _ S). reflexivity. }
    split; (split; [split; [reflexivity|discriminate]|]).
    - eexists. split; [|intros r F; assert (K := ev_keyword I_list_statement "list" I_shape_members n _ p eq_refl S (open_solid _) E r); body_alts K].
      unfold body_of, SmithyParse.body_statement. cbn [p_rule]. rewrite R. reflexivity.
    - eexists. split; [|intros r F; assert (K := ev_keyword I_set_statement "set" I_shape_members n _ p eq_refl S (open_solid _) E r); body_alts K].
      unfold body_of, SmithyParse.body_statement. cbn [p_rule]. rewrite R. reflexivity.
  Qed.
  Lemma map_body n k v : short_identifier n -> short_identifier k -> short_identifier v ->
    gives (icall I_shape_body) (statement_text "map" n (open_text (field "key" k ++ field "value" v)))
      (body_of n (BMap (MB (lit "key") [] (Local k)) (MB (lit "value") [] (Local v)))).
  Proof.
    intros S SK SV. destruct (members_block [(key_text (lit "key") k, MB (lit "key") [] (Local k)); (key_text (lit "value") v, MB (lit "value") [] (Local v))]) as (p & [P M] & E).
    { constructor; [|constructor; [|constructor]]; (apply plain_member_gives; [short_word|apply names_local; assumption]). }
    assert (TX : lit "{" ++ nl ++ lines indent (map fst [(key_text (lit "key") k, MB (lit "key") [] (Local k)); (key_text (lit "value") v, MB (lit "value") [] (Local v))]) ++ lit "}"
                 = open_text (field "key" k ++ field "value" v)).
    { unfold open_text, lines, field, key_text. cbn [map fst concat]. rewrite app_nil_r, <- !app_assoc. reflexivity. }
    rewrite TX in E. clear TX. split; [split; [reflexivity|discriminate]|].
    eexists. split; [|intros r F; assert (K := ev_keyword I_map_statement "map" I_shape_members n _ p eq_refl S (open_solid _) E r); body_alts K].
    unfold body_of, SmithyParse.body_statement. cbn [p_rule]. unfold map_statement. rewrite (membered_read _ _ n p _ P M). cbn [rbind snd fst map].
    assert (FM : fold_result map_step [MB (lit "key") [] (Local k); MB (lit "value") [] (Local v)] (None, None) = Ok (Some k, Some v)) by reflexivity.
    rewrite FM. cbn [rbind both fst snd]. unfold map_new, member_new. rewrite !(name_local _ S), !(name_local _ SK), !(name_local _ SV). reflexivity.
  Qed.
  Lemma members_lines ms : write_members f64_str debug_str ns ms = lines indent (map (fun e => member_text (snd e)) ms).
  Proof.
    unfold write_members, lines. rewrite map_map. f_equal. apply map_ext. intros e. apply write_member_text.
  Qed.
  Lemma structure_body n ms : short_identifier n -> members_writable ms ->
    gives (icall I_shape_body) (statement_text "structure" n (open_text (write_members f64_str debug_str ns ms))) (body_of n (bb (KStructure ms)))
    /\ gives (icall I_shape_body) (statement_text "union" n (open_text (write_members f64_str debug_str ns ms))) (body_of n (bb (KUnion ms))).
  Proof.
    intros S [_ W]. destruct (members_block (map (fun e => (member_text (snd e), mb (snd e))) ms)) as (p & [P M] & E).
    { rewrite Forall_map. apply (Forall_impl _ (P := fun e => short_identifier (ms_id (snd e)) /\ traits_writable (ms_traits (snd e)) /\ local (ms_target (snd e))));
        [|exact W]. intros e (A & B & C). apply gives_member_text; assumption. }
    rewrite !map_map in E. rewrite map_map in M. cbn [fst snd] in *. rewrite members_lines. fold (open_text (lines indent (map (fun e => member_text (snd e)) ms))) in E.
    assert (R : forall mk q t, members_statement f64_parse mk (Pair q t [Pair I_identifier n []; p]) = Ok (SB (Local n) [] (mk (map (fun e => mb (snd e)) ms)))).
    { intros mk q t. unfold members_statement. rewrite (membered_read q t n p _ P M). cbn [rbind snd fst]. rewrite (name_local _ S). reflexivity. }
    split; (split; [split; [reflexivity|discriminate]|]).
    - eexists. split; [|intros r F; assert (K := ev_keyword I_structure_statement "structure" I_shape_members n _ p eq_refl S (open_solid _) E r); body_alts K].
      unfold body_of, SmithyParse.body_statement. cbn [p_rule]. rewrite R. reflexivity.
    - eexists. split; [|intros r F; assert (K := ev_keyword I_union_statement "union" I_shape_members n _ p eq_refl S (open_solid _) E r); body_alts K].
      unfold body_of, SmithyParse.body_statement. cbn [p_rule]. rewrite R. reflexivity.
  Qed.

  (** ** Statements with an object *)
  Notation entry := (str * (str * value))%type.
  Lemma object_block (en : list entry) : Forall (entry_ok f64_parse) en -> distinct str_eqb (map entry_value en) ->
    exists p, (p_rule p = I_node_object /\ idl_object f64_parse p = Ok (map entry_value en))
      /\ forall r, ev false (icall I_node_object) (open_text (lines indent (map entry_text en)) ++ r) (Some ([p], r)).
  Proof.
    intros A D. destruct (object_inside f64_parse en A) as (inner & F & E).
    eexists (Pair I_node_object _ inner). split; [split; [reflexivity|apply (read_object _ _ _ _ D F)]|]. intros r.
    assert (B := block_lines indent (map entry_text en) []). cbn [app] in B. rewrite app_nil_r in B. unfold open_text. rewrite B.
    apply E; [apply (nl_sep _ indent_blank)|apply (nl_sep _ indent_blank)|apply lead_blank, indent_blank|apply trail_blank|].
    intros ->. reflexivity.
  Qed.
  Lemma object_read q t n p o : p_rule p = I_node_object -> idl_object f64_parse p = Ok o ->
    id_and_object f64_parse (Pair q t [Pair I_identifier n []; p]) = Ok (n, o).
  Proof. intros P O. unfold id_and_object. cbn [p_inner fold_result p_rule p_text]. cbn [rbind fst snd]. rewrite P, O. reflexivity. Qed.
  (** Entries that may be missing, under different keys. *)
  Definition piece (x : str * list entry) : Prop := snd x = [] \/ exists e, snd x = [(fst x, e)].
  Lemma pieces_distinct (l : list (str * list entry)) : NoDup (map fst l) -> Forall piece l -> distinct str_eqb (map entry_value (concat (map snd l))).
  Proof.
    intros N F. induction F as [|[k x] l P F IH]; [exact I|]. cbn [map fst snd concat] in *. inversion N as [|k0 l0 N1 N2]; subst.
    destruct P as [P|[e P]]; cbn [fst snd] in P; subst x; cbn [app]; [auto|]. cbn [map distinct entry_value fst snd]. split; [|auto].
    intros k' v' I'. apply in_map_iff in I' as ([k2 e2] & E2 & I2). injection E2 as <- <-. apply in_concat in I2 as (y & Y & I2).
    apply in_map_iff in Y as ([k3 y3] & <- & Y). cbn [snd] in I2. rewrite Forall_forall in F. destruct (F _ Y) as [E|[e3 E]]; cbn [snd fst] in E; subst y3; [destruct I2|].
    destruct I2 as [E|[]]. injection E as -> ->. destruct (str_eqb k2 k) eqn:Q; [|reflexivity]. apply str_eqb_eq in Q. subst k2. exfalso. apply N1.
    exact (in_map fst _ _ Y).
  Qed.
  Definition name_entry (k : string) (o : option shape_id) : list entry :=
    match o with Some id => [(lit k, (sid_name id, VString (sid_name id)))] | None => [] end.
  Definition names_value (l : list shape_id) : value := VArray (map (fun i => VString (sid_name i)) l).
  Definition names_entry (k : string) (l : list shape_id) : list entry :=
    match l with [] => [] | _ => [(lit k, (lit "[" ++ join comma_sep (map sid_name l) ++ lit "]", names_value l))] end.
  Lemma name_piece k o : piece (lit k, name_entry k o).
  Proof. destruct o; [right|left]; cbn; eauto. Qed.
  Lemma names_piece k l : piece (lit k, names_entry k l).
  Proof. destruct l; [left|right]; cbn; eauto. Qed.
  Lemma field_lines k t v : field k t = lines indent (map entry_text [(lit k, (t, v))]).
  Proof. unfold field, lines, entry_text, key_text. cbn [map concat fst snd]. rewrite app_nil_r, <- !app_assoc. reflexivity. Qed.
  Lemma opt_field_lines k o : opt_field k o = lines indent (map entry_text (name_entry k o)).
  Proof. destruct o; [apply field_lines|reflexivity]. Qed.
  Lemma names_field_lines k l : names_field k l = lines indent (map entry_text (names_entry k l)).
  Proof. destruct l; [reflexivity|]. apply field_lines. Qed.
  Lemma name_entry_ok k o : short_identifier (lit k) -> opt_local_value ns m o -> Forall (entry_ok f64_parse) (name_entry k o).
  Proof.
    intros S O. destruct o as [id|]; [|constructor]. constructor; [|constructor]. split; [exact S|]. destruct O as [[L _] K]. apply reads_name; assumption.
  Qed.
  Lemma reads_names l : Forall local_value l -> reads (lit "[" ++ join comma_sep (map sid_name l) ++ lit "]") (names_value l).
  Proof.
    intros F. assert (R := reads_array f64_parse (map (fun i => (sid_name i, VString (sid_name i))) l)). rewrite !map_map in R. apply R.
    rewrite Forall_map. apply (Forall_impl _ (P := local_value)); [|exact F]. intros i [[L _] K]. apply reads_name; assumption.
  Qed.
  Lemma names_entry_ok k l : short_identifier (lit k) -> Forall local_value l -> Forall (entry_ok f64_parse) (names_entry k l).
  Proof.
    intros S F. destruct l as [|i l]; [constructor|]. constructor; [|constructor]. split; [exact S|]. apply reads_names, F.
  Qed.
  Lemma target_read i : local_value i -> target_of (VString (sid_name i)) = Ok (loc i).
  Proof. intros [[L _] _]. unfold target_of. cbn [as_string rbind]. rewrite (name_local _ L). reflexivity. Qed.
  Lemma targets_read l : Forall local_value l -> targets_of (names_value l) = Ok (map loc l).
  Proof.
    intros F. unfold targets_of, names_value. induction F as [|i l L F IH]; [reflexivity|]. cbn [map SelectorParse.map_result].
    rewrite (target_read _ L), IH. reflexivity.
  Qed.

  (** *** Services *)
  Definition service_entries (sv : service) : list entry :=
    concat (map snd [(lit "version", [(lit "version", (quoted (sv_version sv), VString (sv_version sv)))]);
                     (lit "operations", names_entry "operations" (sv_operations sv)); (lit "resources", names_entry "resources" (sv_resources sv))]).
  Lemma distinct_lits l : NoDup l -> NoDup (map lit l).
  Proof.
    intros N. induction N as [|x l X N IH]; [constructor|]. cbn [map]. constructor; [|exact IH]. intros I. apply X.
    apply in_map_iff in I as (y & E & I). replace x with y; [exact I|]. unfold lit in E.
    rewrite <- (string_of_list_ascii_of_string y), <- (string_of_list_ascii_of_string x), E. reflexivity.
  Qed.
  Ltac no_dup := repeat (constructor; [intros I; cbn in I; intuition discriminate|]); constructor.
  Lemma service_body n sv : short_identifier n -> body_writable (KService sv) ->
    gives (icall I_shape_body)
      (statement_text "service" n (open_text (field "version" (debug_str (sv_version sv)) ++ names_field "operations" (sv_operations sv) ++ names_field "resources" (sv_resources sv))))
      (body_of n (bb (KService sv))).
  Proof.
    intros S (NE & [PT DB] & OP & RS).
    assert (A : Forall (entry_ok f64_parse) (service_entries sv)).
    { unfold service_entries. cbn [map snd concat]. rewrite app_nil_r. repeat (apply Forall_app; split).
      - constructor; [|constructor]. split; [short_word|]. apply reads_text, PT.
      - apply names_entry_ok; [short_word|exact OP].
      - apply names_entry_ok; [short_word|exact RS]. }
    assert (D : distinct str_eqb (map entry_value (service_entries sv))).
    { apply pieces_distinct; [apply (distinct_lits ["version"; "operations"; "resources"]%string); no_dup|].
      constructor; [right; eexists; reflexivity|]. constructor; [apply names_piece|]. constructor; [apply names_piece|constructor]. }
    destruct (object_block _ A D) as (p & [P O] & E).
    assert (TX : field "version" (debug_str (sv_version sv)) ++ names_field "operations" (sv_operations sv) ++ names_field "resources" (sv_resources sv)
                 = lines indent (map entry_text (service_entries sv))).
    { rewrite DB, (field_lines "version" _ (VString (sv_version sv))), !names_field_lines. unfold service_entries. cbn [map snd concat].
      rewrite app_nil_r, !map_app, !lines_app. reflexivity. }
    rewrite TX. split; [split; [reflexivity|discriminate]|].
    eexists. split; [|intros r F; assert (K := ev_keyword I_service_statement "service" I_node_object n _ p eq_refl S (open_solid _) E r); body_alts K].
    unfold body_of, SmithyParse.body_statement. cbn [p_rule]. unfold service_statement. rewrite (object_read _ _ n p _ P O). cbn [rbind snd fst].
    assert (G : hm_get str_eqb (lit "version") (map entry_value (service_entries sv)) = Some (VString (sv_version sv))) by reflexivity.
    rewrite G. cbn [as_string rbind]. rewrite (name_local _ S). cbn [unwrap rbind].
    assert (FL : fold_result service_step (map entry_value (service_entries sv)) (SvB (sv_version sv) [] [] [])
                 = Ok (SvB (sv_version sv) (map loc (sv_operations sv)) (map loc (sv_resources sv)) [])).
    { unfold service_entries. cbn [map snd concat]. rewrite app_nil_r, !map_app, !fold_result_app.
      assert (F0 : fold_result service_step (map entry_value [(lit "version", (quoted (sv_version sv), VString (sv_version sv)))]) (SvB (sv_version sv) [] [] [])
                   = Ok (SvB (sv_version sv) [] [] [])) by reflexivity.
      assert (F1 : forall l : list shape_id, Forall local_value l ->
        fold_result service_step (map entry_value (names_entry "operations" l)) (SvB (sv_version sv) [] [] []) = Ok (SvB (sv_version sv) (map loc l) [] [])).
      { intros l F. destruct l as [|i l]; [reflexivity|]. unfold entry_value; cbn [names_entry map fold_result fst snd].
        change (service_step (SvB (sv_version sv) [] [] []) (lit "operations", names_value (i :: l)))
          with (l <- targets_of (names_value (i :: l)) ;; Ok (SvB (sv_version sv) ([] ++ l) [] [])). rewrite (targets_read _ F). reflexivity. }
      assert (F2 : forall ops (l : list shape_id), Forall local_value l ->
        fold_result service_step (map entry_value (names_entry "resources" l)) (SvB (sv_version sv) ops [] []) = Ok (SvB (sv_version sv) ops (map loc l) [])).
      { intros ops l F. destruct l as [|i l]; [reflexivity|]. unfold entry_value; cbn [names_entry map fold_result fst snd].
        change (service_step (SvB (sv_version sv) ops [] []) (lit "resources", names_value (i :: l)))
          with (l <- targets_of (names_value (i :: l)) ;; Ok (SvB (sv_version sv) ops ([] ++ l) [])). rewrite (targets_read _ F). reflexivity. }
      rewrite F0. cbn [rbind]. rewrite fold_result_app, (F1 _ OP). cbn [rbind]. apply F2, RS. }
    rewrite FL. reflexivity.
  Qed.

  (** *** Operations *)
  Definition operation_entries (o : operation) : list entry :=
    concat (map snd [(lit "input", name_entry "input" (op_input o)); (lit "output", name_entry "output" (op_output o)); (lit "errors", names_entry "errors" (op_errors o))]).
  Lemma operation_body n o : short_identifier n -> body_writable (KOperation o) ->
    gives (icall I_shape_body)
      (statement_text "operation" n (open_text (opt_field "input" (op_input o) ++ opt_field "output" (op_output o) ++ names_field "errors" (op_errors o))))
      (body_of n (bb (KOperation o))).
  Proof.
    intros S (WI & WO & WE).
    assert (A : Forall (entry_ok f64_parse) (operation_entries o)).
    { unfold operation_entries. cbn [map snd concat]. rewrite app_nil_r. repeat (apply Forall_app; split).
      - apply name_entry_ok; [short_word|exact WI].
      - apply name_entry_ok; [short_word|exact WO].
      - apply names_entry_ok; [short_word|exact WE]. }
    assert (D : distinct str_eqb (map entry_value (operation_entries o))).
    { apply pieces_distinct; [apply (distinct_lits ["input"; "output"; "errors"]%string); no_dup|].
      constructor; [apply name_piece|]. constructor; [apply name_piece|]. constructor; [apply names_piece|constructor]. }
    destruct (object_block _ A D) as (p & [P O] & E).
    assert (TX : opt_field "input" (op_input o) ++ opt_field "output" (op_output o) ++ names_field "errors" (op_errors o)
                 = lines indent (map entry_text (operation_entries o))).
    { rewrite !opt_field_lines, !names_field_lines. unfold operation_entries. cbn [map snd concat]. rewrite app_nil_r, !map_app, !lines_app. reflexivity. }
    rewrite TX. split; [split; [reflexivity|discriminate]|].
    eexists. split; [|intros r F; assert (K := ev_keyword I_operation_statement "operation" I_node_object n _ p eq_refl S (open_solid _) E r); body_alts K].
    unfold body_of, SmithyParse.body_statement. cbn [p_rule]. unfold operation_statement. rewrite (object_read _ _ n p _ P O). cbn [rbind snd fst].
    rewrite (name_local _ S). cbn [unwrap rbind].
    assert (FL : fold_result operation_step (map entry_value (operation_entries o)) (OpB None None [])
                 = Ok (OpB (option_map loc (op_input o)) (option_map loc (op_output o)) (map loc (op_errors o)))).
    { unfold operation_entries. cbn [map snd concat]. rewrite app_nil_r, !map_app, !fold_result_app.
      assert (F0 : fold_result operation_step (map entry_value (name_entry "input" (op_input o))) (OpB None None []) = Ok (OpB (option_map loc (op_input o)) None [])).
      { destruct (op_input o) as [i|]; [|reflexivity]. unfold entry_value; cbn [name_entry map fold_result fst snd].
        change (operation_step (OpB None None []) (lit "input", VString (sid_name i)))
          with (t <- target_of (VString (sid_name i)) ;; Ok (OpB (Some t) None [])). rewrite (target_read _ WI). reflexivity. }
      assert (F1 : forall x, fold_result operation_step (map entry_value (name_entry "output" (op_output o))) (OpB x None []) = Ok (OpB x (option_map loc (op_output o)) [])).
      { intros x. destruct (op_output o) as [i|]; [|reflexivity]. unfold entry_value; cbn [name_entry map fold_result fst snd].
        change (operation_step (OpB x None []) (lit "output", VString (sid_name i)))
          with (t <- target_of (VString (sid_name i)) ;; Ok (OpB x (Some t) [])). rewrite (target_read _ WO). reflexivity. }
      assert (F2 : forall x y, fold_result operation_step (map entry_value (names_entry "errors" (op_errors o))) (OpB x y []) = Ok (OpB x y (map loc (op_errors o)))).
      { intros x y. destruct (op_errors o) as [|i l]; [reflexivity|]. unfold entry_value; cbn [names_entry map fold_result fst snd].
        change (operation_step (OpB x y []) (lit "errors", names_value (i :: l)))
          with (l <- targets_of (names_value (i :: l)) ;; Ok (OpB x y ([] ++ l))). rewrite (targets_read _ WE). reflexivity. }
      rewrite F0. cbn [rbind]. rewrite fold_result_app, F1. cbn [rbind]. apply F2. }
    rewrite FL. reflexivity.
  Qed.

  (** *** Resources *)
  Definition ids_entry (l : list (str * shape_id)) : list entry :=
    match l with
    | [] => []
    | _ => [(lit "identifiers",
             (lit "{" ++ nl ++ lines (indent ++ indent) (map (fun e => key_text (fst e) (sid_name (snd e))) l) ++ indent ++ lit "}",
              VObject (map (fun e => (fst e, VString (sid_name (snd e)))) l)))]
    end.
  Definition ids_text (l : list (str * shape_id)) : str :=
    match l with
    | [] => []
    | ids => indent ++ lit "identifiers: {" ++ nl
             ++ concat (map (fun e => indent ++ indent ++ fst e ++ lit ": " ++ sid_name (snd e) ++ nl) ids) ++ indent ++ lit "}" ++ nl
    end.
  Lemma ids_text_lines l : ids_text l = lines indent (map entry_text (ids_entry l)).
  Proof.
    destruct l as [|e l]; [reflexivity|]. unfold ids_text, ids_entry. cbn [map]. unfold lines at 1. cbn [map concat]. rewrite app_nil_r.
    unfold entry_text, key_text at 1. cbn [fst snd]. unfold lines. rewrite map_cons, map_map. cbn [concat].
    rewrite (map_ext (fun x => (indent ++ indent) ++ key_text (fst x) (sid_name (snd x)) ++ nl)
                     (fun e => indent ++ indent ++ fst e ++ lit ": " ++ sid_name (snd e) ++ nl)); [|intros x; unfold key_text; rewrite <- !app_assoc; reflexivity].
    unfold key_text. rewrite <- !app_assoc. reflexivity.
  Qed.
  Lemma ids_piece l : piece (lit "identifiers", ids_entry l).
  Proof. destruct l; [left|right]; cbn; eauto. Qed.
  Lemma ident_distinct {V} (l : list (str * V)) : distinct ident_key_eqb l -> distinct str_eqb l.
  Proof.
    induction l as [|[k v] l IH]; [auto|]. intros [A B]. split; [|auto]. intros k' v' I. destruct (str_eqb k' k) eqn:E; [|reflexivity].
    apply str_eqb_eq in E. subst k'. rewrite <- (A k v' I). symmetry. apply ident_key_refl.
  Qed.
  Lemma ids_entry_ok l : distinct ident_key_eqb l -> Forall (fun e => short_identifier (fst e) /\ local_value (snd e)) l ->
    Forall (entry_ok f64_parse) (ids_entry l).
  Proof.
    intros D F. unfold ids_entry. destruct l as [|e0 l0] eqn:EL; [constructor|]. rewrite <- EL in *.
    assert (NE : l <> []) by (rewrite EL; discriminate). clear EL e0 l0. constructor; [|constructor]. split; [short_word|]. cbn [fst snd].
    set (en := map (fun e : str * shape_id => (fst e, (sid_name (snd e), VString (sid_name (snd e))))) l).
    assert (EV : map entry_value en = map (fun e => (fst e, VString (sid_name (snd e)))) l) by (unfold en; rewrite map_map; reflexivity).
    assert (ET : map entry_text en = map (fun e => key_text (fst e) (sid_name (snd e))) l) by (unfold en; rewrite map_map; reflexivity).
    rewrite <- EV, <- ET. rewrite block_lines.
    apply (reads_object f64_parse en).
    - apply Forall_forall. intros x I. apply in_map_iff in I as (e & <- & I). rewrite Forall_forall in F. destruct (F e I) as [S [[L _] K]].
      split; [exact S|]. apply reads_name; assumption.
    - rewrite EV. refine (ReorderFacts.distinct_keys _ l _ _ (ident_distinct _ D)). clear. induction l; constructor; auto.
    - apply nl_sep, blank_app; apply indent_blank.
    - discriminate.
    - apply lead_blank, blank_app; apply indent_blank.
    - apply blank_app; [apply trail_blank|apply indent_blank].
    - intros E. exfalso. apply NE. destruct l; [reflexivity|discriminate E].
  Qed.
  Definition no_resource : resource_builder := RsB [] None None None None None None [] [] [].
  Lemma resource_name (f : option shape_name -> resource_builder) k o : opt_local_value ns m o ->
    (forall v, resource_step (f None) (lit k, v) = (t <- target_of v ;; Ok (f (Some t)))) ->
    fold_result resource_step (map entry_value (name_entry k o)) (f None) = Ok (f (option_map loc o)).
  Proof.
    intros L E. destruct o as [i|]; [|reflexivity]. unfold entry_value; cbn [name_entry map fold_result fst snd].
    rewrite E, (target_read _ L). reflexivity.
  Qed.
  Lemma resource_names (f : list shape_name -> resource_builder) k l : Forall local_value l ->
    (forall v, resource_step (f []) (lit k, v) = (t <- targets_of v ;; Ok (f ([] ++ t)))) ->
    fold_result resource_step (map entry_value (names_entry k l)) (f []) = Ok (f (map loc l)).
  Proof.
    intros L E. destruct l as [|i l]; [reflexivity|]. unfold entry_value; cbn [names_entry map fold_result fst snd].
    rewrite E, (targets_read _ L). reflexivity.
  Qed.
  Lemma resource_ids l : distinct ident_key_eqb l -> Forall (fun e => short_identifier (fst e) /\ local_value (snd e)) l ->
    fold_result resource_step (map entry_value (ids_entry l)) no_resource
    = Ok (RsB (map (fun e => (fst e, loc (snd e))) l) None None None None None None [] [] []).
  Proof.
    intros D F. destruct l as [|e0 l0] eqn:EL; [reflexivity|]. rewrite <- EL in *.
    assert (E : map entry_value (ids_entry l) = [(lit "identifiers", VObject (map (fun e => (fst e, VString (sid_name (snd e)))) l))]) by (rewrite EL; reflexivity).
    rewrite E. clear E EL e0 l0. cbn [fold_result].
    change (resource_step no_resource (lit "identifiers", VObject (map (fun e => (fst e, VString (sid_name (snd e)))) l)))
      with (ids' <- fold_result (fun ids x => t <- as_string (snd x) ;; i <- unwrap (ident_from_str (fst x)) ;; n <- unwrap (shape_name_from_str t) ;;
                    Ok (hm_insert ident_key_eqb i n ids)) (map (fun e => (fst e, VString (sid_name (snd e)))) l) [] ;;
            Ok (RsB ids' None None None None None None [] [] [])).
    assert (K : forall acc, fold_result (fun ids x => t <- as_string (snd x) ;; i <- unwrap (ident_from_str (fst x)) ;; n <- unwrap (shape_name_from_str t) ;;
                    Ok (hm_insert ident_key_eqb i n ids)) (map (fun e => (fst e, VString (sid_name (snd e)))) l) acc
             = Ok (fold_left (fun m kv => hm_insert ident_key_eqb (fst kv) (snd kv) m) (map (fun e => (fst e, loc (snd e))) l) acc)).
    { clear D. induction F as [|e l [S [[L _] _]] F IH]; intros acc; [reflexivity|]. cbn [map fold_result fst snd as_string rbind].
      rewrite (SelectorFacts.short_from_str _ S), (name_local _ L). cbn [unwrap rbind]. rewrite IH. reflexivity. }
    rewrite K, (insert_all _ ident_key_equiv); [reflexivity|]. cbn [app].
    refine (ReorderFacts.distinct_keys _ l _ _ D). clear. induction l; constructor; auto.
  Qed.
  Definition resource_pieces (r : resource) : list (str * list entry) :=
    [(lit "identifiers", ids_entry (rs_identifiers r)); (lit "create", name_entry "create" (rs_create r));
     (lit "put", name_entry "put" (rs_put r)); (lit "read", name_entry "read" (rs_read r)); (lit "update", name_entry "update" (rs_update r));
     (lit "delete", name_entry "delete" (rs_delete r)); (lit "list", name_entry "list" (rs_list r));
     (lit "operations", names_entry "operations" (rs_operations r));
     (lit "collectionOperations", names_entry "collectionOperations" (rs_collection_operations r));
     (lit "resources", names_entry "resources" (rs_resources r))].
  Definition resource_content (r : resource) : str :=
    ids_text (rs_identifiers r)
    ++ opt_field "create" (rs_create r) ++ opt_field "put" (rs_put r) ++ opt_field "read" (rs_read r)
    ++ opt_field "update" (rs_update r) ++ opt_field "delete" (rs_delete r) ++ opt_field "list" (rs_list r)
    ++ names_field "operations" (rs_operations r)
    ++ names_field "collectionOperations" (rs_collection_operations r)
    ++ names_field "resources" (rs_resources r).
  Lemma resource_body n r : short_identifier n -> body_writable (KResource r) ->
    gives (icall I_shape_body) (statement_text "resource" n (open_text (resource_content r))) (body_of n (bb (KResource r))).
  Proof.
    intros S (DI & FI & FO & FN). set (en := concat (map snd (resource_pieces r))).
    inversion FO as [|? ? Wc FO1]; subst. inversion FO1 as [|? ? Wp FO2]; subst. inversion FO2 as [|? ? Wr FO3]; subst.
    inversion FO3 as [|? ? Wu FO4]; subst. inversion FO4 as [|? ? Wd FO5]; subst. inversion FO5 as [|? ? Wl _]; subst.
    apply Forall_app in FN as [No FN]. apply Forall_app in FN as [Nc Nr]. clear FO FO1 FO2 FO3 FO4 FO5.
    assert (A : Forall (entry_ok f64_parse) en).
    { unfold en, resource_pieces. cbn [map snd concat]. rewrite app_nil_r. repeat (apply Forall_app; split);
        (apply ids_entry_ok; assumption) || (apply name_entry_ok; [short_word|assumption]) || (apply names_entry_ok; [short_word|assumption]). }
    assert (D : distinct str_eqb (map entry_value en)).
    { apply pieces_distinct.
      - apply (distinct_lits ["identifiers"; "create"; "put"; "read"; "update"; "delete"; "list"; "operations"; "collectionOperations"; "resources"]%string); no_dup.
      - repeat (constructor; [apply ids_piece || apply name_piece || apply names_piece|]). constructor. }
    destruct (object_block _ A D) as (p & [P O] & E).
    assert (TX : resource_content r = lines indent (map entry_text en)).
    { unfold resource_content, en, resource_pieces. rewrite ids_text_lines, !opt_field_lines, !names_field_lines. cbn [map snd concat].
      rewrite app_nil_r, !map_app, !lines_app. reflexivity. }
    rewrite TX. split; [split; [reflexivity|discriminate]|].
    eexists. split; [|intros r0 F; assert (K := ev_keyword I_resource_statement "resource" I_node_object n _ p eq_refl S (open_solid _) E r0); body_alts K].
    unfold body_of, SmithyParse.body_statement. cbn [p_rule]. unfold resource_statement. rewrite (object_read _ _ n p _ P O). cbn [rbind snd fst].
    rewrite (name_local _ S). cbn [unwrap rbind]. fold no_resource.
    assert (FL : fold_result resource_step (map entry_value en) no_resource =
      Ok (RsB (map (fun e => (fst e, loc (snd e))) (rs_identifiers r)) (option_map loc (rs_create r))
          (option_map loc (rs_put r)) (option_map loc (rs_read r)) (option_map loc (rs_update r))
          (option_map loc (rs_delete r)) (option_map loc (rs_list r)) (map loc (rs_operations r))
          (map loc (rs_collection_operations r)) (map loc (rs_resources r)))).
    { unfold en, resource_pieces. cbn [map snd concat]. rewrite app_nil_r, !map_app.
      rewrite fold_result_app, (resource_ids _ DI FI). cbn [rbind]. set (ids := map _ (rs_identifiers r)).
      rewrite fold_result_app, (resource_name (fun o => RsB ids o None None None None None [] [] []) "create" _ Wc); [|reflexivity]. cbn [rbind].
      rewrite fold_result_app, (resource_name (fun o => RsB ids _ o None None None None [] [] []) "put" _ Wp); [|reflexivity]. cbn [rbind].
      rewrite fold_result_app, (resource_name (fun o => RsB ids _ _ o None None None [] [] []) "read" _ Wr); [|reflexivity]. cbn [rbind].
      rewrite fold_result_app, (resource_name (fun o => RsB ids _ _ _ o None None [] [] []) "update" _ Wu); [|reflexivity]. cbn [rbind].
      rewrite fold_result_app, (resource_name (fun o => RsB ids _ _ _ _ o None [] [] []) "delete" _ Wd); [|reflexivity]. cbn [rbind].
      rewrite fold_result_app, (resource_name (fun o => RsB ids _ _ _ _ _ o [] [] []) "list" _ Wl); [|reflexivity]. cbn [rbind].
      rewrite fold_result_app, (resource_names (fun l => RsB ids _ _ _ _ _ _ l [] []) "operations" _ No); [|reflexivity]. cbn [rbind].
      rewrite fold_result_app, (resource_names (fun l => RsB ids _ _ _ _ _ _ _ l []) "collectionOperations" _ Nc); [|reflexivity]. cbn [rbind].
      exact (resource_names (fun l => RsB ids _ _ _ _ _ _ _ _ l) "resources" _ Nr (fun v => eq_refl)). }
    rewrite FL. reflexivity.
  Qed.

  (** ** All of them *)
  Definition core (s : shape) : str :=
    let n := sid_name (ts_id s) in
    match ts_body s with
    | KSimple st => simple_display st ++ lit " " ++ n
    | KList x => statement_text "list" n (open_text (field "member" (sid_display (ms_target x))))
    | KSet x => statement_text "set" n (open_text (field "member" (sid_display (ms_target x))))
    | KMap k v => statement_text "map" n (open_text (field "key" (sid_name (ms_target k)) ++ field "value" (sid_name (ms_target v))))
    | KStructure ms => statement_text "structure" n (open_text (write_members f64_str debug_str ns ms))
    | KUnion ms => statement_text "union" n (open_text (write_members f64_str debug_str ns ms))
    | KService sv =>
        statement_text "service" n (open_text (field "version" (debug_str (sv_version sv)) ++ names_field "operations" (sv_operations sv) ++ names_field "resources" (sv_resources sv)))
    | KOperation o =>
        statement_text "operation" n (open_text (opt_field "input" (op_input o) ++ opt_field "output" (op_output o) ++ names_field "errors" (op_errors o)))
    | KResource r => statement_text "resource" n (open_text (resource_content r))
    | KUnresolved => []
    end.
  Lemma block_core kw n c : block kw n c = statement_text kw n (open_text c) ++ nl.
  Proof. unfold block, statement_text, open_text. rewrite <- !app_assoc. reflexivity. Qed.
  Lemma write_body_core s : ts_body s <> KUnresolved -> write_body s = core s ++ nl.
  Proof.
    intros N. unfold SmithyWrite.write_body, core. destruct (ts_body s); try (rewrite block_core; reflexivity).
    - rewrite <- !app_assoc. reflexivity.
    - rewrite block_core. unfold resource_content, ids_text. destruct (rs_identifiers r); reflexivity.
    - congruence.
  Qed.
  Lemma gives_body s : short_identifier (sid_name (ts_id s)) -> ts_body s <> KUnresolved -> body_writable (ts_body s) ->
    gives (icall I_shape_body) (core s) (body_of (sid_name (ts_id s)) (bb (ts_body s))).
  Proof.
    intros S N W. unfold core. destruct (ts_body s) as [st|x|x|k v|ms|ms|sv|o|r|].
    - apply simple_body, S.
    - apply (list_body _ _ S W).
    - apply (list_body _ _ S W).
    - destruct W as [[A _] [B _]]. apply map_body; assumption.
    - apply (structure_body _ _ S W).
    - apply (structure_body _ _ S W).
    - apply service_body; assumption.
    - apply operation_body; assumption.
    - apply resource_body; assumption.
    - congruence.
  Qed.
  Lemma core_named s : ts_body s <> KUnresolved -> named (core s) /\ forall r, ev false (icall I_use_statement) (core s ++ r) None.
  Proof.
    intros N. unfold core. destruct (ts_body s) as [st|x|x|k v|ms|ms|sv|o|r0|]; try congruence; try (split; [left; reflexivity|intros r; ev_compute]).
    destruct st; (split; [left; reflexivity|intros r; ev_compute]).
  Qed.
End Facts.
