(** C55-C59: trait queries, shape and value queries, names in builders, texts of issues and errors, order of numbers. *)
From Verif.Model Require Import Queries Errors.
From Verif.Spec Require Import QueriesSpec ErrorsSpec MessageSpec Witness.
From Verif.Proofs Require Import BaseFacts IdentityFacts HashMapFacts ShapeFacts QueriesFacts ErrorsFacts.
From Verif.Props Require P03_Actions.

(* ---------------------------------------------------------------- C55 *)
(** Each question is answered by whether the element carries the trait of that name in the Smithy prelude. *)
Theorem C55_questions :
  forall (H : Hasher) (ts : traits),
    (forall id, has_trait id ts = true <-> carries ts id)
    /\ (has_traits ts = true <-> ts <> [])
    /\ Forall (fun q => fst q ts = true <-> carries ts (smithy_api (snd q))) trait_questions.
Proof.
  intros H ts. split; [intros id; apply has_trait_carries|]. split; [destruct ts; split; try discriminate; try reflexivity; congruence|].
  unfold trait_questions. repeat (constructor; [apply has_trait_carries|]). constructor.
Qed.
Print Assumptions C55_questions.

(** What an element holds for a trait after any history of applying and removing traits. *)
Theorem C55_history :
  forall (H : Hasher) (h : list trait_call) (t : shape_id) (x : option (option value)),
    Forall call_ok h -> (trait_named t (traits_after h) = x <-> holds t h x).
Proof.
  intros H h t x F. pose proof (holds_after h t F) as HH. split; [intros <-; exact HH|]. apply holds_unique, HH.
Qed.
Print Assumptions C55_history.

(** So a question is answered with yes exactly when the trait was applied and has not been removed since. *)
Theorem C55_applied_and_kept :
  forall (H : Hasher) (h : list trait_call) (t : shape_id),
    Forall call_ok h -> (has_trait t (traits_after h) = true <-> applied_and_kept t h).
Proof.
  intros H h t F. rewrite <- (holds_kept t h _ (holds_after h t F)). unfold has_trait, trait_named, hm_contains.
  destruct (hm_get _ _ _); split; congruence.
Qed.
Print Assumptions C55_applied_and_kept.

(** Appending a set of traits applies them one by one and stops at the first one refused, which changes nothing. *)
Theorem C55_append :
  forall (H : Hasher) (from ts ts' : traits) (r : result unit),
    append_traits ts from = (ts', r) ->
    exists done rest,
      from = done ++ rest
      /\ ts' = fold_left trait_do (map (fun t => Apply (fst t) (snd t)) done) ts
      /\ match rest with
         | [] => r = Ok tt
         | t :: _ => r <> Ok tt /\ apply_with_value ts' (fst t) (snd t) = (ts', r)
         end.
Proof.
  intros H from ts ts' r E. destruct (append_is_applies from ts ts' r E) as (d & rest & A & B & _ & C). exists d, rest. auto.
Qed.
Print Assumptions C55_append.

Example C55_ex :
  let h := [Apply (api_id "tags") (Some (VArray [VString "a"])); Apply (api_id "deprecated") None;
            Apply (api_id "tags") (Some (VArray [VString "b"])); Remove (api_id "deprecated")] in
  Forall call_ok h
  /\ @is_tagged zero_hasher (@traits_after zero_hasher h) = true
  /\ @is_deprecated zero_hasher (@traits_after zero_hasher h) = false
  /\ @trait_named zero_hasher (api_id "tags") (@traits_after zero_hasher h) = Some (Some (VArray [VString "a"; VString "b"])).
Proof. split; [repeat constructor|]. vm_compute. repeat split. Qed.

(* ---------------------------------------------------------------- C56 *)
(** Every body is of exactly one kind, every value of exactly one form. *)
Theorem C56_exactly_one :
  (forall k, exactly_one kind_questions k) /\ (forall v, exactly_one value_questions v).
Proof.
  Local Ltac one q := match goal with |- exactly_one ?l ?x => let l' := eval unfold kind_questions, value_questions in l in
    match l' with context C [cons q ?after] =>
      exists (firstn (List.length l' - S (List.length after)) l'), q, after end end;
    split; [reflexivity|]; split; [reflexivity|]; split; repeat constructor.
  split.
  - intros []; [one kind_is_simple|one kind_is_list|one kind_is_set|one kind_is_map|one kind_is_structure|one kind_is_union
               |one is_service|one is_operation|one is_resource|one is_unresolved].
  - intros []; [one is_array|one value_is_object|one value_is_number|one value_is_boolean|one value_is_string|one value_is_none].
Qed.
Print Assumptions C56_exactly_one.

(** The question and the accessor of a kind recognise that kind and give its contents. *)
Theorem C56_recognises :
  recognises kind_is_simple kind_as_simple KSimple
  /\ recognises kind_is_list kind_as_list KList
  /\ recognises kind_is_set kind_as_set KSet
  /\ recognises kind_is_map kind_as_map (fun kv => KMap (fst kv) (snd kv))
  /\ recognises kind_is_structure kind_as_structure KStructure
  /\ recognises kind_is_union kind_as_union KUnion
  /\ recognises is_service kind_as_service KService
  /\ recognises is_operation kind_as_operation KOperation
  /\ recognises is_resource kind_as_resource KResource
  /\ (forall k, is_unresolved k = true <-> k = KUnresolved)
  /\ recognises is_array value_as_array VArray
  /\ recognises value_is_object value_as_object VObject
  /\ recognises value_is_number value_as_number VNumber
  /\ recognises value_is_boolean value_as_boolean VBoolean
  /\ recognises value_is_string value_as_string VString
  /\ (forall v, value_is_none v = true <-> v = VNone).
Proof.
  repeat apply conj; try (intros x; split; [|intros v]; destruct x; cbn; split; intros E;
    try discriminate; try (destruct E as (? & E); discriminate E); try (injection E as E; subst); try reflexivity; eauto; fail).
  - intros x. split.
    + destruct x as [| | |k v| | | | | |]; cbn; split; intros E; try discriminate; try (destruct E as (? & E); discriminate E);
        try reflexivity. exists (k, v). reflexivity.
    + intros [a b]. destruct x; cbn; split; intros E; try discriminate; injection E as -> ->; reflexivity.
  - intros []; cbn; split; congruence.
  - intros []; cbn; split; congruence.
Qed.
Print Assumptions C56_recognises.

(** What is put into a shape is what is found in it; the conversions keep what they are given. *)
Theorem C56_constructors :
  (forall id b, ts_id (shape_new id b) = id /\ ts_body (shape_new id b) = b /\ ts_traits (shape_new id b) = [])
  /\ (forall id b ts, shape_with_traits id b ts = Shape id ts b)
  /\ (forall s b, ts_body (shape_set_body s b) = b /\ ts_id (shape_set_body s b) = ts_id s
                  /\ ts_traits (shape_set_body s b) = ts_traits s)
  /\ (forall s id, ts_id (shape_set_id s id) = id /\ ts_body (shape_set_id s id) = ts_body s
                   /\ ts_traits (shape_set_id s id) = ts_traits s)
  /\ (forall b, kind_as_simple (kind_from_simple b) = Some b)
  /\ (forall b, kind_as_service (kind_from_service b) = Some b)
  /\ (forall b, kind_as_operation (kind_from_operation b) = Some b)
  /\ (forall b, kind_as_resource (kind_from_resource b) = Some b)
  /\ (forall n, value_as_number (value_from_int n) = Some (NInteger n))
  /\ (forall b, value_as_number (value_from_f64 b) = Some (NFloat b))
  /\ (forall n, value_as_number (value_from_number n) = Some n)
  /\ (forall b, value_as_boolean (value_from_bool b) = Some b)
  /\ (forall s, value_as_string (value_from_string s) = Some s)
  /\ (forall l, value_as_array (value_from_vec l) = Some l)
  /\ (forall l, value_as_object (value_from_map l) = Some l)
  (* the id put into a string value can be read back *)
  /\ (forall i, valid_id i -> exists s, value_as_string (value_from_id i) = Some s /\ sid_from_str s = Ok i).
Proof.
  repeat apply conj; try (intros; repeat split; fail). intros i V. eexists. split; [reflexivity|].
  rewrite sid_display_text. apply sid_from_str_complete, V.
Qed.
Print Assumptions C56_constructors.

(** Looking for a member finds the member of that name and nothing else. *)
Theorem C56_members :
  forall (H : Hasher) (s : shape) (n : str),
    body_ok (ts_body s) ->
    (forall m, ts_member s n = Some m <-> member_named (ts_body s) n m)
    /\ (ts_has_member s n = true <-> exists m, member_named (ts_body s) n m)
    /\ (shape_has_members s = false <-> ts_body s = KUnresolved \/ exists b, ts_body s = KSimple b)
    /\ (is_prelude_shape s = true <-> sid_ns (ts_id s) = lit "smithy.api").
Proof.
  intros H s n B. assert (M := fun m => ts_member_named s n m B). split; [exact M|]. split; [|split].
  - unfold ts_has_member. destruct (ts_member s n) as [m|] eqn:E.
    + split; [intros _; exists m; apply M, eq_refl|reflexivity].
    + split; [discriminate|]. intros (m & X). apply M in X. discriminate.
  - unfold shape_has_members. destruct (ts_body s); split; try discriminate; eauto; intros [E|(b & E)]; discriminate.
  - apply str_eqb_eq.
Qed.
Print Assumptions C56_members.

(** [has_members] promises more than there is: its question is "does this shape support members?", and it says yes for
    services, operations and resources, in which no member can ever be found. *)
Definition C56_supports_members : Prop :=
  forall s, shape_has_members s = true -> exists (H : Hasher) s' n, ts_member s' n <> None
    /\ forall q, In q kind_questions -> q (ts_body s') = q (ts_body s).
Theorem C56_supports_members_refuted :
  ~ C56_supports_members
  /\ forall (H : Hasher) s n, is_service (ts_body s) = true \/ is_operation (ts_body s) = true \/ is_resource (ts_body s) = true ->
       shape_has_members s = true /\ ts_member s n = None.
Proof.
  assert (P : forall (H : Hasher) s n, is_service (ts_body s) = true \/ is_operation (ts_body s) = true \/ is_resource (ts_body s) = true ->
       shape_has_members s = true /\ ts_member s n = None).
  { intros H s n C. unfold shape_has_members, ts_member. destruct (ts_body s); cbn in C; try (intuition discriminate); auto. }
  split; [|exact P]. intros C.
  destruct (C (Shape (ex_id "S") [] (KOperation (Operation None None []))) eq_refl) as (H & s' & n & N & Q).
  assert (O : is_operation (ts_body s') = true).
  { rewrite (Q is_operation); [reflexivity|]. unfold kind_questions. cbn. tauto. }
  destruct (P H s' n) as [_ E]; [tauto|contradiction].
Qed.
Print Assumptions C56_supports_members_refuted.

Example C56_ex :
  let s := Shape (ex_id "M") [] (KMap (MS "key" [] (api_id "String")) (MS "value" [] (api_id "Blob"))) in
  @body_ok zero_hasher (ts_body s)
  /\ @ts_member zero_hasher s (lit "Value") = Some (MS "value" [] (api_id "Blob"))
  /\ @ts_member zero_hasher s (lit "member") = None.
Proof. vm_compute. repeat split. Qed.

(* ---------------------------------------------------------------- C57 *)
(** A text names a shape exactly when it is an absolute shape id or an identifier, and is kept as it is. *)
Theorem C57_text :
  forall s : str,
    (forall n, shape_name_from_str s = Ok n <-> valid_name n /\ name_text n = s)
    /\ (shape_name_from_str s = Err (EInvalidShapeID s) <-> forall n, valid_name n -> name_text n <> s)
    /\ (forall n, shape_name_display n = name_text n).
Proof.
  intros s. assert (D : forall n, shape_name_display n = name_text n).
  { intros [i|i]; [apply sid_display_text|reflexivity]. }
  assert (NI : forall i j, valid_id i -> is_identifier j -> id_text i <> j).
  { intros i j V J E. assert (X : In "#"%char j) by (rewrite <- E; unfold id_text; apply in_app_iff; right; left; reflexivity).
    revert X. apply identifier_no; [exact J|reflexivity]. }
  assert (T : forall n, shape_name_from_str s = Ok n <-> valid_name n /\ name_text n = s).
  { intros n. unfold shape_name_from_str. destruct (sid_is_valid s) eqn:V.
    - apply sid_is_valid_spec in V as (i & E). rewrite E. apply sid_from_str_sound in E as [VI ->]. split.
      + intros [= <-]. auto.
      + destruct n as [j|j]; cbn [valid_name name_text]; intros [VN E].
        * do 2 f_equal. symmetry. apply id_text_inj; auto.
        * exfalso. apply (NI i j); auto.
    - assert (NV : forall i, valid_id i -> id_text i <> s).
      { intros i VI <-. pose proof (sid_from_str_complete i VI) as E. assert (sid_is_valid (id_text i) = true) by (apply sid_is_valid_spec; eauto).
        congruence. }
      destruct (ident_is_valid s) eqn:W.
      + assert (E : ident_from_str s = Ok s) by (unfold ident_from_str; rewrite W; reflexivity). rewrite E.
        apply ident_is_valid_spec in W. split; [intros [= <-]; auto|]. destruct n as [j|j]; cbn; intros [VN X].
        * exfalso. apply (NV j); auto.
        * subst. reflexivity.
      + split; [discriminate|]. destruct n as [j|j]; cbn; intros [VN X].
        * exfalso. apply (NV j); auto.
        * subst. apply ident_is_valid_spec in VN. congruence. }
  split; [exact T|]. split; [|exact D]. split.
  - intros E n V X. assert (shape_name_from_str s = Ok n) by (apply T; auto). congruence.
  - intros N. destruct (shape_name_from_str s) as [n|e|] eqn:E.
    + assert (valid_name n /\ name_text n = s) as [V X] by (apply T; reflexivity). exfalso. apply (N n V X).
    + unfold shape_name_from_str in E. destruct (sid_is_valid s) eqn:V.
      { apply sid_is_valid_spec in V as (i & X). rewrite X in E. discriminate. }
      destruct (ident_is_valid s) eqn:W; [|congruence]. unfold ident_from_str in E. rewrite W in E. discriminate.
    + unfold shape_name_from_str in E. destruct (sid_is_valid s) eqn:V.
      { apply sid_is_valid_spec in V as (i & X). rewrite X in E. discriminate. }
      destruct (ident_is_valid s) eqn:W; [|congruence]. unfold ident_from_str in E. rewrite W in E. discriminate.
Qed.
Print Assumptions C57_text.

(** Parsing gives back what was printed, and different names are printed differently. *)
Theorem C57_round_trip :
  (forall n, valid_name n -> shape_name_from_str (shape_name_display n) = Ok n)
  /\ (forall a b, valid_name a -> valid_name b -> shape_name_display a = shape_name_display b -> a = b).
Proof.
  assert (R : forall n, valid_name n -> shape_name_from_str (shape_name_display n) = Ok n).
  { intros n V. destruct (C57_text (shape_name_display n)) as (T & _ & D). apply T. split; [exact V|symmetry; apply D]. }
  split; [exact R|]. intros a b A B E. apply R in A, B. rewrite E in A. congruence.
Qed.
Print Assumptions C57_round_trip.

(** The parts of a name, and equality: without regard to case, and never between a qualified and a local name. *)
Theorem C57_queries :
  (forall i, let n := shape_name_from_id i in
     is_qualified n = true /\ is_local n = false /\ as_qualified n = Some i /\ as_local n = None
     /\ name_namespace n = Some (sid_ns i) /\ name_of n = sid_name i /\ name_member n = sid_member i
     /\ (forall j, eq_qualified n j = true <-> same_id i j) /\ (forall j, eq_local n j = false))
  /\ (forall i, let n := shape_name_from_identifier i in
     is_qualified n = false /\ is_local n = true /\ as_qualified n = None /\ as_local n = Some i
     /\ name_namespace n = None /\ name_of n = i /\ name_member n = None
     /\ (forall j, eq_local n j = true <-> same_name i j) /\ (forall j, eq_qualified n j = false))
  /\ (forall n, (exists i, n = shape_name_from_id i) \/ exists i, n = shape_name_from_identifier i)
  /\ (forall i j, shape_name_eqb (shape_name_from_id i) (shape_name_from_id j) = true <-> same_id i j)
  /\ (forall i j, shape_name_eqb (shape_name_from_identifier i) (shape_name_from_identifier j) = true <-> same_name i j)
  /\ (forall i j, shape_name_eqb (shape_name_from_id i) (shape_name_from_identifier j) = false
                  /\ shape_name_eqb (shape_name_from_identifier j) (shape_name_from_id i) = false).
Proof.
  split; [|split; [|split; [|split; [|split]]]].
  - intros i n. repeat (split; [first [reflexivity|intros j; apply sid_eqb_same]|]). reflexivity.
  - intros i n. repeat (split; [first [reflexivity|intros j; apply ident_eqb_same]|]). reflexivity.
  - intros [i|i]; [left|right]; exists i; reflexivity.
  - intros i j. apply sid_eqb_same.
  - intros i j. apply ident_eqb_same.
  - intros i j. split; reflexivity.
Qed.
Print Assumptions C57_queries.
Example C57_ex :
  shape_name_from_str "example.motd#Date" = Ok (Qualified (ex_id "Date"))
  /\ shape_name_from_str "Date" = Ok (Local "Date")
  /\ shape_name_from_str "example.motd" = Err (EInvalidShapeID "example.motd")
  /\ valid_name (Local "Date").
Proof. split; [|split; [|split]]; try (vm_compute; reflexivity). apply ident_is_valid_spec. reflexivity. Qed.

(* ---------------------------------------------------------------- C58 *)
(** An issue keeps what it is made of; only an empty message is refused, with a panic. *)
Theorem C58_issue_constructors :
  forall (l : level) (rep msg : str) (id : shape_id),
    (issue_new l rep msg = Panic <-> msg = []) /\ (issue_new_at l rep msg id = Panic <-> msg = [])
    /\ (msg <> [] ->
          issue_new l rep msg = Ok (Issue rep l msg None) /\ issue_new_at l rep msg id = Ok (Issue rep l msg (Some id))
          /\ issue_info rep msg = Ok (Issue rep Info msg None) /\ issue_info_at rep msg id = Ok (Issue rep Info msg (Some id))
          /\ issue_warning rep msg = Ok (Issue rep Warning msg None)
          /\ issue_warning_at rep msg id = Ok (Issue rep Warning msg (Some id))
          /\ issue_error rep msg = Ok (Issue rep Error msg None)
          /\ issue_error_at rep msg id = Ok (Issue rep Error msg (Some id))).
Proof.
  intros l rep msg id. destruct msg; (split; [split; cbn; congruence|]); (split; [split; cbn; congruence|]).
  - intros N. congruence.
  - intros _. repeat split.
Qed.
Print Assumptions C58_issue_constructors.

(** The levels are ordered Info < Warning < Error. *)
Theorem C58_levels :
  forall a b : level,
    (level_partial_cmp a b = Some Eq <-> a = b)
    /\ (level_partial_cmp a b = Some Lt <-> (a = Info /\ b <> Info) \/ (a = Warning /\ b = Error))
    /\ (level_partial_cmp a b = Some Gt <-> level_partial_cmp b a = Some Lt)
    /\ (level_display a = level_display b -> a = b).
Proof.
  intros a b. split; [|split; [|split]].
  - destruct a, b; split; intros E; try reflexivity; discriminate.
  - destruct a, b; split; intros E; try discriminate; try reflexivity;
      try (left; split; [reflexivity|discriminate]); try (right; split; reflexivity);
      destruct E as [[E N]|[E N]]; congruence.
  - destruct a, b; split; intros E; try reflexivity; discriminate.
  - destruct a, b; intros E; try reflexivity; discriminate.
Qed.
Print Assumptions C58_levels.

(** The words for the levels and the layout of an issue's text. *)
Definition level_word (l : level) : str :=
  match l with Info => lit "info" | Warning => lit "warning" | Error => lit "error" end.
Theorem C58_issue_layout :
  forall (rep msg : str) (l : level) (id : shape_id),
    level_display l = level_word l
    /\ issue_display (Issue rep l msg None) = rep ++ lit " " ++ level_word l ++ lit ": " ++ msg
    /\ issue_display (Issue rep l msg (Some id)) = rep ++ lit " " ++ level_word l ++ lit " " ++ id_text id ++ lit ": " ++ msg.
Proof.
  intros rep msg l id. split; [destruct l; reflexivity|]. split; destruct l; unfold issue_display; cbn [i_reporter i_level i_locus i_message];
    rewrite ?sid_display_text, <- ?app_assoc; reflexivity.
Qed.
Print Assumptions C58_issue_layout.

(** The text of an issue says who reports what, how bad and where. *)
Theorem C58_issue_text :
  forall a b : issue, readable_issue a -> readable_issue b -> issue_display a = issue_display b -> a = b.
Proof. exact issue_display_inj. Qed.
Print Assumptions C58_issue_text.

(** The text of an error says which error it is and what it is about. *)
Theorem C58_error_text :
  forall (debug_str : str -> str) (a b : error_kind),
    self_delimiting debug_str -> readable_error a -> readable_error b ->
    error_display debug_str a = error_display debug_str b -> a = b.
Proof. intros d a b S. apply error_display_inj, S. Qed.
Print Assumptions C58_error_text.

(** The issues of the standard validators and linters are reported by one-word names and never have an empty message,
    so creating them does not panic. *)
Theorem C58_standard_issues :
  forall (H : Hasher) (snake camel mixed : str -> str) (m : model) (i : issue),
    In i (fst (ctr_validate m []) ++ fst (nur_validate m []) ++ fst (nc_check camel mixed m []) ++ fst (ut_check snake m [])) ->
    i_message i <> [] /\ ~ In " "%char (i_reporter i) /\ (exists l, issue_display i = i_reporter i ++ lit " " ++ l).
Proof.
  intros H snake camel mixed m i I.
  assert (G : i_message i <> [] /\ ~ In " "%char (i_reporter i)).
  { rewrite !in_app_iff in I. destruct I as [I|[I|[I|I]]].
    - destruct (P03_Actions.C19_messages H m []) as (new & E & M). rewrite E in I. cbn [fst app] in I.
      apply M in I as (s & _ & T). destruct T as [n what t x RA G F|n what t RA G N|p B T]; cbn [i_message i_reporter].
      + split; [|vm_compute; intuition discriminate].
        destruct n; cbn [wrong_kind]; intros E'; apply app_eq_nil in E' as [_ E']; discriminate.
      + split; [|vm_compute; intuition discriminate]. unfold no_such_shape. intros E'.
        apply app_eq_nil in E' as [_ E']. apply app_eq_nil in E' as [_ E']. discriminate.
      + split; [discriminate|vm_compute; intuition discriminate].
    - destruct (P03_Actions.C18_no_unresolved_references_exact m []) as (new & E & M). rewrite E in I. cbn [fst app] in I.
      assert (exists s, i_reporter i = lit "NoUnresolvedReferences"
                /\ i_message i = lit "The model has an unresolved reference to shape '" ++ sid_display (ts_id s) ++ lit "'") as (s & -> & ->).
      { clear E. induction M as [|s j l new (A1 & A2 & A3 & A4) M IH]; [destruct I|]. destruct I as [<-|I]; eauto. }
      split; [discriminate|]. vm_compute. intuition discriminate.
    - destruct (P03_Actions.C21_messages H camel mixed m []) as (new & E & M). rewrite E in I. cbn [fst app] in I.
      apply M in I as (s & p & c & n & id & _ & _ & _ & _ & ->). cbn [i_message i_reporter].
      split; [|vm_compute; intuition discriminate]. unfold naming_message. destruct c, p; discriminate.
    - destruct (P03_Actions.C22_unwelcome_terms H snake m []) as (new & E & M & _). rewrite E in I. cbn [fst app] in I.
      apply M in I as (s & p & n & id & w & _ & _ & _ & _ & ->). cbn [i_message i_reporter].
      split; [discriminate|vm_compute; intuition discriminate]. }
  destruct G as [G1 G2]. split; [exact G1|]. split; [exact G2|]. unfold issue_display. eexists. reflexivity.
Qed.
Print Assumptions C58_standard_issues.

Example C58_ex :
  let i := Issue (lit "UnwelcomeTerms") Warning (lit "hmm") (Some (ex_id "Date")) in
  readable_issue i /\ issue_display i = lit "UnwelcomeTerms warning example.motd#Date: hmm"
  /\ readable_error (Deserialization (lit "Smithy") (lit "pest") None)
  /\ error_display (fun s => s) (Deserialization (lit "Smithy") (lit "pest") None)
     = lit "An error occurred de-serializing a model from representation 'Smithy' at location 'pest' (context 'None')."
  /\ readable_error (MergeShapeConflict (ex_id "Date")).
Proof.
  assert (V : valid_id (ex_id "Date")) by (apply (proj1 (sid_from_str_sound "example.motd#Date" _ eq_refl))).
  split; [split; [vm_compute; intuition discriminate|exact V]|]. split; [vm_compute; reflexivity|].
  split; [split; vm_compute; intuition discriminate|]. split; [vm_compute; reflexivity|exact V].
Qed.
(** A self-delimiting form: unary length, then the text. *)
Example C58_debug_ex : exists d : str -> str, self_delimiting d.
Proof.
  exists (fun s => map (fun _ => "1"%char) s ++ "0"%char :: s). intros a b x y E. rewrite <- !app_assoc in E. cbn [app] in E.
  assert (NZ : forall s : str, ~ In "0"%char (map (fun _ => "1"%char) s)).
  { intros s X. apply in_map_iff in X as (? & X & _). discriminate. }
  apply app_sep_inj in E as [L E]; [|apply NZ|apply NZ].
  assert (LL : List.length a = List.length b).
  { apply (f_equal (@List.length ascii)) in L. rewrite !map_length in L. exact L. }
  clear L NZ. revert b LL E. induction a as [|c a IH]; destruct b as [|c' b]; cbn; intros LL E; try discriminate; auto.
  injection E as -> E. injection LL as LL. destruct (IH b LL E) as [-> ->]. auto.
Qed.

(* ---------------------------------------------------------------- C59 *)
(** Numbers are compared by value within a variant; integers come before all floats; only NaN compares with nothing. *)
Theorem C59_order :
  forall a b : number,
    (number_partial_cmp a b = Some Lt <-> number_before a b)
    /\ (number_partial_cmp a b = Some Gt <-> number_before b a)
    /\ (number_partial_cmp a b = Some Eq <-> number_same a b)
    /\ (number_partial_cmp a b = None <-> match a, b with NFloat x, NFloat y => f64_nan x \/ f64_nan y | _, _ => False end).
Proof.
  intros a b. split; [apply number_cmp_lt|]. split; [apply number_cmp_gt|]. split; [apply number_cmp_eq|apply number_cmp_none].
Qed.
Print Assumptions C59_order.

(** It is a strict partial order, total among numbers that are not NaN, and agrees with [==]. *)
Theorem C59_laws :
  (forall a, number_partial_cmp a a <> Some Lt)
  /\ (forall a b c, number_partial_cmp a b = Some Lt -> number_partial_cmp b c = Some Lt -> not_nan b -> number_partial_cmp a c = Some Lt)
  /\ (forall a b, not_nan a -> not_nan b -> number_partial_cmp a b <> None)
  /\ (forall a b, number_ok a -> number_ok b -> (number_partial_cmp a b = Some Eq <-> number_eqb a b = true)).
Proof.
  split; [|split; [|split]].
  - intros a E. apply number_cmp_lt in E. inversion E; lia.
  - intros a b c A B N. apply number_cmp_lt in A, B. apply number_cmp_lt.
    destruct A; inversion B; subst; try constructor; auto; lia.
  - intros a b A B E. apply number_cmp_none in E. destruct a, b; auto. destruct E; contradiction.
  - intros a b A B. rewrite number_cmp_eq. destruct a as [x|x], b as [y|y]; cbn [number_eqb].
    + rewrite Z.eqb_eq. split; [inversion 1; reflexivity|intros ->; constructor].
    + split; [inversion 1|discriminate].
    + split; [inversion 1|discriminate].
    + rewrite (f64_eqb_units x y A B). split; [inversion 1; auto|]. intros (X & Y & E). constructor; auto.
Qed.
Print Assumptions C59_laws.

(** Transitivity needs no condition when the ends are an integer and a float; but across the variants the order is not
    that of the values: 2 is before 1.0. *)
Definition C59_by_value : Prop :=
  forall n b, number_ok (NFloat b) -> not_nan (NFloat b) ->
    (number_partial_cmp (NInteger n) (NFloat b) = Some Lt <-> (n * 2 ^ 1074 < f64_units b)%Z).
Theorem C59_by_value_refuted : ~ C59_by_value.
Proof.
  intros C. specialize (C 2%Z 4607182418800017408%Z). cbn [number_ok not_nan] in C.
  assert (L : (2 * 2 ^ 1074 < f64_units 4607182418800017408)%Z).
  { apply C; [unfold is_f64; lia| |reflexivity]. intros [E _]. vm_compute in E. discriminate. }
  vm_compute in L. discriminate.
Qed.
Print Assumptions C59_by_value_refuted.

(** 1.0 = 0x3FF0000000000000 is 2^1074 units; 1.5 follows it; -0.0 equals 0.0. *)
Example C59_ex :
  f64_units 4607182418800017408 = (2 ^ 1074)%Z
  /\ number_partial_cmp (NFloat 4607182418800017408) (NFloat 4609434218613702656) = Some Lt
  /\ number_partial_cmp (NFloat 9223372036854775808) (NFloat 0) = Some Eq
  /\ number_partial_cmp (NFloat 13830554455654793216) (NFloat 0) = Some Lt
  /\ number_partial_cmp (NFloat 9221120237041090560) (NFloat 0) = None
  /\ number_ok (NFloat 9221120237041090560) /\ not_nan (NFloat 4607182418800017408).
Proof.
  repeat apply conj; try (vm_compute; reflexivity); try (vm_compute; discriminate).
  intros [E _]. vm_compute in E. discriminate.
Qed.
