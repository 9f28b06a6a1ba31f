(** C66, C67: a document in the Smithy IDL means what it declares. *)
From Verif.Model Require Import SelectorParse SmithyParse SmithyWrite.
From Verif.Spec Require Import IdlSpec Witness.
From Verif.Proofs Require Import BaseFacts HashMapFacts IdentityFacts SmithyValueFacts SmithyTraitFacts IdlDocFacts BuilderFacts IdlBuildFacts.
From Verif.Proofs Require LayoutParse.
From Verif.Props Require Import P07_Builder.

Lemma laid_parse (f : str -> Z) (H : Hasher) d t : laid_out d t -> parse_model f t = parse_model f (document_text d).
Proof. intros [-> |S]; [reflexivity|]. symmetry. apply LayoutParse.layout_is_free, S. Qed.

(* ---------------------------------------------------------------- C66 *)
(** Reading a document makes the model builder calls it stands for, and builds. *)
Theorem C66_document_is_its_calls :
  forall (f64_parse : str -> Z) (H : Hasher) (d : idl_document) (s : idl_section) (t : str),
    document_ok d -> id_section d = Some s -> version_known f64_parse d -> laid_out d t ->
    exists b0 b,
      builder_new V10 (id_namespace s) = Ok b0 /\ builder_run b0 (section_calls f64_parse d s) = Ok b
      /\ builder_ok b /\ parse_model f64_parse t = build b.
Proof.
  intros f H d s t O S V L. rewrite (laid_parse f H d t L), (parse_document f d O). rewrite (proj1 (version_result f d) V). cbn [rbind].
  assert (SO : section_ok s) by (destruct O as (_ & _ & O); rewrite S in O; exact O).
  unfold document_result. rewrite S. eexists. eexists. split; [exact (new_builder s SO)|]. split; [exact (section_run f d s SO V10)|]. split; [|reflexivity].
  eapply builder_run_ok; [apply calls_ok| |exact (section_run f d s SO V10)]. exact (builder_ok_new _ _ _ (new_builder s SO)).
Qed.
Print Assumptions C66_document_is_its_calls.

(** Without a section there is nothing to build: the model is empty, and loses its metadata. *)
Theorem C66_without_section :
  forall (f64_parse : str -> Z) (H : Hasher) (d : idl_document) (t : str),
    document_ok d -> id_section d = None -> version_known f64_parse d -> laid_out d t ->
    parse_model f64_parse t = Ok (Model V10 [] []).
Proof.
  intros f H d t O S V L. rewrite (laid_parse f H d t L), (parse_document f d O). rewrite (proj1 (version_result f d) V). cbn [rbind].
  unfold document_result. rewrite S. reflexivity.
Qed.
Print Assumptions C66_without_section.

(** Documents for other versions are refused. *)
Theorem C66_other_versions_are_refused :
  forall (f64_parse : str -> Z) (H : Hasher) (d : idl_document) (t v : str),
    document_ok d -> version_asked f64_parse d = Some v -> v <> lit "1" -> v <> lit "1.0" -> laid_out d t ->
    parse_model f64_parse t = Err (EInvalidVersionNumber (Some v)).
Proof.
  intros f H d t v O A N1 N2 L. rewrite (laid_parse f H d t L), (parse_document f d O).
  rewrite (proj2 (version_result f d) v A N1 N2). reflexivity.
Qed.
Print Assumptions C66_other_versions_are_refused.

(* ---------------------------------------------------------------- C67 *)
(** A document whose names do not clash is read, and the model holds what it declares: every statement is a shape
    of the namespace, with the declared traits and body, every name resolved by the rules of the language; imports
    are shapes without a body; nothing else is there but shapes without a body for names found nowhere. *)
Theorem C67_model_of_document :
  forall (f64_parse : str -> Z) (H : Hasher) (d : idl_document) (s : idl_section) (t : str),
    document_ok d -> id_section d = Some s -> version_known f64_parse d -> plain_section s -> laid_out d t ->
    exists b m,
      parse_model f64_parse t = Ok m
      /\ (forall is_trait r id, refers s is_trait r id -> names_to b is_trait (declared_name r) id)
      /\ m_version m = V10
      /\ m_metadata m = object_of (map (fun e => (idl_key_text (fst e), node_value f64_parse (snd e))) (id_metadata d))
      /\ (forall x, In x (id_statements s) ->
            exists sh, model_shape m (own s (is_name x)) = Some sh /\ ts_id sh = own s (is_name x)
                       /\ traits_from b (declared_traits f64_parse (is_docs x) (is_traits x)) (ts_traits sh)
                       /\ body_from b (set_as_list (declared_body f64_parse (is_body x))) (ts_body sh))
      /\ (forall i, In i (id_uses s) ->
            exists sh, model_shape m i = Some sh /\ ts_id sh = i /\ traits_from b [] (ts_traits sh) /\ ts_body sh = KUnresolved)
      /\ (forall id sh, model_shape m id = Some sh ->
            (exists x, In x (id_statements s) /\ sid_key_eqb (own s (is_name x)) id = true)
            \/ (exists i, In i (id_uses s) /\ sid_key_eqb i id = true)
            \/ (ts_traits sh = [] /\ ts_body sh = KUnresolved
                /\ exists x is_trait n, In x (id_statements s) /\ In (is_trait, Local n) (mentions (declared_shape f64_parse x))
                     /\ ~ in_prelude is_trait n /\ sid_key_eqb (own s n) id = true))
      /\ (forall x is_trait n, In x (id_statements s) -> In (is_trait, Local n) (mentions (declared_shape f64_parse x)) ->
            Forall (fun n' => ~ same_name n' n) (map sid_name (id_uses s) ++ map is_name (id_statements s)) ->
            ~ in_prelude is_trait n -> model_shape m (own s n) <> None).
Proof.
  intros f H d s t O S V PS L. rewrite (laid_parse f H d t L), (parse_document f d O). rewrite (proj1 (version_result f d) V). cbn [rbind].
  assert (SO : section_ok s) by (destruct O as (_ & _ & O); rewrite S in O; exact O).
  assert (E : document_result f d V10 = build (the_builder f d s)).
  { unfold document_result. rewrite S. pose proof (section_run f d s SO V10) as R. rewrite (the_run f d s SO PS) in R. injection R as <-. reflexivity. }
  rewrite E. clear E. pose proof (the_builder_ok f d s SO PS) as OK.
  destruct (C30_builds H _ OK (it_builds f d s SO PS)) as [m B].
  destruct (C29_nothing_else_is_built H _ m OK B) as (Ev & Em & Only & Unknown).
  exists (the_builder f d s), m. split; [exact B|]. split; [apply refers_resolution, PS|]. split; [exact Ev|]. split; [exact Em|].
  split; [|split; [|split]].
  - intros x I. destruct (C29_declared_shape_is_built H _ m _ _ _ OK B (only_statement f d s PS x I) (or_introl eq_refl)) as (sh & G & A & T & Bd).
    exists sh. auto.
  - intros i I. destruct (C29_declared_shape_is_built H _ m _ _ _ OK B (only_use f d s PS i I) (or_intror eq_refl)) as (sh & G & A & T & Bd).
    exists sh. split; [exact G|]. split; [exact A|]. split; [exact T|]. inversion Bd. reflexivity.
  - intros id sh G. destruct (Only id sh G) as [(k & x & id' & I & Ow & E & _)|(T & Bd & k & x & tr & n & id' & I & M & R & E)].
    + destruct (own_ids f d s PS k x id' I Ow) as [(i & J & _ & ->)|(y & J & _ & ->)]; [right; left|left]; eauto.
    + right. right. split; [exact T|]. split; [exact Bd|].
      apply in_shapes in I as [(i & _ & _ & ->)|(y & J & _ & ->)]; [destruct M|]. inversion R; subst. exists y, tr. eexists. repeat split; eassumption.
  - intros x tr n I M F N. eapply Unknown; [apply in_shapes; right; exists x; auto|exact M|].
    exact (unknown_resolution f d s tr n F N).
Qed.
Print Assumptions C67_model_of_document.

(* ---------------------------------------------------------------- examples *)
From Verif.Props Require Import P12_Smithy.
Definition two_lines : str := line_end ++ lit "  // layout" ++ line_end ++ lit " ".
Definition weather_section : idl_section :=
  Section_ (lit "example.weather") [SID (lit "example.geo") (lit "Coordinates") None]
    [ Statement [lit " Weather, "; lit "   day by day"] [Trait (Bare (lit "paginated")) (Arguments [(Plain (lit "size"), IInt (-3)); (Quoted (lit "token"), IArray [INull; IBool true; IText (lit "next")])])]
        (lit "Weather") (DService [SvOperations [Bare (lit "GetTime")]; SvVersion (lit "2006-03-01"); SvResources [Bare (lit "City")]]);
      Statement [] [] (lit "City") (DResource [RsRead (Bare (lit "GetTime")); RsIdentifiers [(lit "cityId", Bare (lit "CityId"))]]);
      Statement [] [Trait (Bare (lit "readonly")) NoArguments] (lit "GetTime") (DOperation [OpErrors [Bare (lit "NoSuchResource")]; OpOutput (Bare (lit "Report"))]);
      Statement [] [Trait (Full (SID (lit "smithy.api") (lit "pattern") None)) (OneValue (IText (lit "^[A-Z]+$")));
                    Trait (Bare (lit "documentation")) (OneValue (IBlock two_lines (lit "A ""city"", not // ""town""s.")))] (lit "CityId") (DSimple SString);
      Statement [] [] (lit "Report")
        (DStructure [Member [lit "Where."] [Trait (Bare (lit "required")) NoArguments] (lit "coordinates") (Bare (lit "Coordinates"));
                     Member [] [] (lit "names") (Full (SID (lit "example.weather") (lit "Names") None))]);
      Statement [] [] (lit "Names") (DMap [Member [] [] (lit "value") (Bare (lit "String")); Member [] [] (lit "Key") (Bare (lit "CityId"))]);
      Statement [] [] (lit "Sets") (DSet [Member [] [] (lit "member") (Bare (lit "Integer"))]) ].
Definition weather_document : idl_document :=
  Document [(Plain (lit "version"), IText (lit "1.0"))]
    [(Quoted (lit "authors"), IArray [IText (lit "me")]); (Plain (lit "x"), IObject [(Plain (lit "y"), IDecimal (lit "1.5"))])]
    (Some weather_section).
Lemma plain_text_body s : forallb plain_ascii s = true -> text_body s.
Proof.
  induction s as [|c s IH]; [constructor|]. cbn [forallb]. intros E. apply andb_true_iff in E as [C E].
  assert (X : Peg.decode1 (c :: s) = Some (N_of_ascii c, s)) by (destruct c as [[] [] [] [] [] [] [] []]; (discriminate C || reflexivity)).
  apply (text_plain _ _ _ X); [..|exact (IH E)]; unfold plain_ascii in C; cbv zeta in C; rewrite !andb_true_iff, !negb_true_iff, N.leb_le, N.ltb_lt, !N.eqb_neq in C; lia.
Qed.
Ltac solve_block :=
  apply nk_block;
  [lazymatch goal with |- layout ?g => let t := eval vm_compute in g in change (layout t) end; solve_layout
  |apply plain_block_body; vm_compute; reflexivity
  |split; [intros ? ? E; injection E as <- <-; reflexivity|intros ? E; discriminate E]].
Lemma decimal_1_5 : decimal (lit "1.5").
Proof.
  exists [], (lit "1"), (lit "5"). split; [reflexivity|]. split; [left; reflexivity|]. split; [right; exists "1"%char, []; repeat split; vm_compute; auto|].
  split; [discriminate|vm_compute; repeat constructor].
Qed.
Ltac solve_text := apply plain_text_body; vm_compute; reflexivity.
Ltac solve_ref := lazymatch goal with |- ref_ok (Bare _) => change (short_identifier (lit _)) | |- _ => idtac end; cbn [ref_ok]; first [solve_short|solve_absolute].
Ltac solve_keyless := intros ?; repeat split; vm_compute; discriminate.
Ltac solve_idl_key := cbn [fst key_ok]; first [solve_short|solve_text].
Ltac solve_node :=
  cbn [snd];
  lazymatch goal with
  | |- node_ok INull => apply nk_null
  | |- node_ok (IBool _) => apply nk_bool
  | |- node_ok (IInt _) => apply nk_int; lia
  | |- node_ok (IDecimal _) => apply nk_decimal; exact decimal_1_5
  | |- node_ok (IText _) => apply nk_text; solve_text
  | |- node_ok (IBlock _ _) => solve_block
  | |- node_ok (IRef _) => apply nk_ref; split; [cbn [ref_ok]; first [solve_short|solve_absolute]|solve_keyless]
  | |- node_ok (IArray _) => apply nk_array; repeat (apply Forall_cons; [solve_node|]); apply Forall_nil
  | |- node_ok (IObject _) => apply nk_object; repeat (apply Forall_cons; [split; [solve_idl_key|solve_node]|]); apply Forall_nil
  | |- node_ok (refs_node _) => unfold refs_node; cbn [map]; solve_node
  | |- node_ok _ => cbn [service_entry operation_entry resource_entry snd map fst]; solve_node
  end.
Ltac solve_entries := unfold entries_ok; repeat (apply Forall_cons; [split; [solve_idl_key|solve_node]|]); apply Forall_nil.
Ltac solve_idl_trait := split; [lazy beta iota delta [it_name ref_ok]; first [solve_short|solve_absolute]|cbn [it_arguments arguments_ok]; first [exact I|solve_entries|solve_node]].
Ltac solve_heading := split; [repeat (apply Forall_cons; [cbv; solve_comment|]); apply Forall_nil|repeat (apply Forall_cons; [solve_idl_trait|]); apply Forall_nil].
Ltac solve_member := split; [cbn [im_docs im_traits]; solve_heading|split; [cbn [im_name]; solve_short|lazy beta iota delta [im_target ref_ok]; first [solve_short|solve_absolute]]].
Ltac solve_fields :=
  split; [cbn; repeat (apply NoDup_cons; [cbn; intros X; repeat (destruct X as [X|X]; [discriminate X|]); exact X|]); apply NoDup_nil
         |repeat (apply Forall_cons; [solve_node|]); apply Forall_nil].
Ltac solve_named := vm_compute; reflexivity.
Example C66_ex : document_ok weather_document /\ (forall f, version_known f weather_document) /\ plain_section weather_section.
Proof.
  split; [|split].
  - split; [cbn [id_control weather_document]; solve_entries|]. split; [cbn [id_metadata weather_document]; solve_entries|].
    cbn [id_section weather_document]. unfold weather_section. split; [|split].
    + exists [lit "example"; lit "weather"]. split; [discriminate|split; [repeat (apply Forall_cons; [solve_short|]); apply Forall_nil|reflexivity]].
    + apply Forall_cons; [solve_absolute|apply Forall_nil].
    + cbn [id_statements].
      repeat lazymatch goal with |- Forall idl_statement_ok (_ :: _) =>
        apply Forall_cons; [split; [cbn [is_docs is_traits]; solve_heading|split; [cbn [is_name]; solve_short|cbn [is_body idl_body_ok]]]|] end; try apply Forall_nil.
      * split; [solve_fields|]. exists (lit "2006-03-01"). cbn. auto.
      * split; [solve_fields|]. intros l [X|[X|[]]]; [discriminate X|]. injection X as <-. cbn. repeat constructor. cbn. tauto.
      * solve_fields.
      * exact I.
      * repeat (apply Forall_cons; [solve_member|]); apply Forall_nil.
      * split; [repeat (apply Forall_cons; [split; [solve_member|first [left; solve_named|right; solve_named]]|]); apply Forall_nil|].
        split; [apply Exists_cons_tl, Exists_cons_hd; solve_named|apply Exists_cons_hd; solve_named].
      * eexists. split; [reflexivity|]. split; [solve_member|solve_named].
  - intros f v E. vm_compute in E. injection E as <-. right. reflexivity.
  - split.
    + match goal with |- NoDup ?l => let v := eval vm_compute in l in change (NoDup v) end.
      repeat (apply NoDup_cons; [cbn; intros X; repeat (destruct X as [X|X]; [discriminate X|]); exact X|]); apply NoDup_nil.
    + intros x fs t I B T. cbn in I. repeat (destruct I as [<-|I]; [try discriminate B; injection B as <-|]); [|destruct I].
      cbn in T. repeat (destruct T as [X|T]; [try discriminate X; injection X as <-; discriminate|]). destruct T.
Qed.
(** The same document, laid out differently. *)
Definition weather_lines : list string :=
  [ "// A forecast."; "$version: ""1.0"","; "metadata ""authors"" = ["; "  ""me"", // and others"; "]"; "metadata x = {y : 1.5,}"; ""; "namespace example.weather"; "";
    "use example.geo#Coordinates"; "/// Weather, "; "///   day by day"; "@paginated("; "    size: -3, ""token"": [null true ""next""])"; "service Weather {";
    "    operations: [GetTime], version: ""2006-03-01"","; "    resources: [ City ]"; "}"; "resource City { read: GetTime, identifiers: { cityId: CityId } }";
    "@readonly operation GetTime{errors: [NoSuchResource], output: Report}"; "@smithy.api#pattern(""^[A-Z]+$"")";
    "@documentation(""""""A ""city"", not // ""town""s."""""")"; "string CityId"; "structure Report {"; "    ///Where."; "    @required";
    "    coordinates: Coordinates,"; "    names: example.weather#Names,"; "}"; "map Names { value: String, Key: CityId }"; "set Sets { member: Integer }"; "" ].
Definition weather_text : str := join (lit (String (ascii_of_N 10) "")) (map lit weather_lines).
Example C66_ex_layout : IdlSpec.laid_out weather_document weather_text /\ weather_text <> document_text weather_document.
Proof. split; [right; solve_tokens|vm_compute; discriminate]. Qed.
Example C67_ex :
  refers weather_section false (Bare (lit "coordinates")) (SID (lit "example.geo") (lit "Coordinates") None)
  /\ refers weather_section false (Bare (lit "CityId")) (SID (lit "example.weather") (lit "CityId") None)
  /\ refers weather_section false (Bare (lit "NoSuchResource")) (SID (lit "example.weather") (lit "NoSuchResource") None)
  /\ refers weather_section true (Bare (lit "readonly")) (SID (lit "smithy.api") (lit "readonly") None)
  /\ match @parse_model zero_parse zero_hasher weather_text with
     | Ok m => map (fun e => sid_display (fst e)) (m_shapes m)
               = map lit ["example.geo#Coordinates"; "example.weather#Weather"; "example.weather#City"; "example.weather#GetTime"; "example.weather#CityId";
                          "example.weather#Report"; "example.weather#Names"; "example.weather#Sets"; "example.weather#NoSuchResource"]%string
     | _ => False
     end.
Proof.
  split; [apply refers_import; [left; reflexivity|reflexivity]|].
  split; [exact (refers_declared weather_section false _ (or_intror (or_intror (or_intror (or_introl eq_refl)))))|].
  split; [apply refers_unknown|split; [apply refers_prelude; [|solve_prelude]|]].
  - vm_compute. repeat constructor; discriminate.
  - intros X. apply BuilderFacts.prelude_spec in X. vm_compute in X. discriminate X.
  - vm_compute. repeat constructor; discriminate.
  - vm_compute. reflexivity.
Qed.
