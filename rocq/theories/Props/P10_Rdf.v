(** C35: the RDF form of a model (atelier-rdf/src/writer.rs). *)
From Verif.Model Require Import Rdf.
From Verif.Spec Require Import IdentitySpec RdfSpec Witness.
From Verif.Proofs Require Import BaseFacts HashMapFacts ModelFacts IdentityFacts AssemblerFacts UrnFacts RdfFacts RdfKeepFacts RdfGraphFacts.

(* ---------------------------------------------------------------- C35 *)
(** The graph of a model says exactly that the model has its version and its resolved shapes, and about
    each of these exactly what its description says; there is nothing else in it. *)
Theorem C35_graph_describes_model :
  forall (H : Hasher) (f64_str : Z -> str) (m : model) (model_iri : option iri),
    model_ok m -> model_valid m ->
    (forall i s, model_iri = Some i -> In s (resolved m) -> i <> shape_to_iri (ts_id s)) ->
    exists g subject,
      model_to_rdf f64_str m model_iri = (g, None)
      /\ match model_iri with Some i => subject = TIri i | None => exists n, subject = TBlank n end
      /\ says (g_statements g) subject
           ((smithy "smithy_version", text "1.0") :: (a_type, class "Model")
            :: map (fun s => (smithy "shape", named (ts_id s))) (resolved m))
      /\ (forall s, In s (resolved m) ->
            says (g_statements g) (TIri (shape_to_iri (ts_id s))) (shape_description f64_str s))
      /\ (forall st, In st (g_statements g) ->
            st_subject st = subject
            \/ (exists s, In s (resolved m) /\ st_subject st = TIri (shape_to_iri (ts_id s)))
            \/ exists n, st_subject st = TBlank n).
Proof.
  intros H f m mi OK V NI. destruct (described f m mi OK V NI) as (g & G & A & B & C).
  exists g. eexists. split; [exact G|]. split; [|split; [exact B|split; [exact A|exact C]]].
  destruct mi; [reflexivity|eexists; reflexivity].
Qed.
Print Assumptions C35_graph_describes_model.

(** Models with the same graph, up to the names of blank nodes, have the same resolved shapes, but for what
    the graph does not keep. *)
Theorem C35_graph_determines_shapes :
  forall (H : Hasher) (f64_str : Z -> str) (m m' : model) (i i' : option iri) (g g' : graph),
    model_ok m -> model_valid m -> model_ok m' -> model_valid m' ->
    (forall j s, i = Some j -> In s (resolved m) -> j <> shape_to_iri (ts_id s)) ->
    (forall j s, i' = Some j -> In s (resolved m') -> j <> shape_to_iri (ts_id s)) ->
    model_to_rdf f64_str m i = (g, None) -> model_to_rdf f64_str m' i' = (g', None) ->
    same_graph (g_statements g) (g_statements g') -> kept_model f64_str m m'.
Proof.
  intros H f m m' i i' g g' OK V OK' V' NI NI' E E' (r & inj & same).
  destruct (described f m i OK V NI) as (g0 & G & A & B & C). rewrite E in G. injection G as <-.
  destruct (described f m' i' OK' V' NI') as (g0 & G & A' & B' & C'). rewrite E' in G. injection G as <-.
  assert (K : forall s, In s (resolved m) -> valid_id (ts_id s)) by (intros s I; apply V, I).
  assert (K' : forall s, In s (resolved m') -> valid_id (ts_id s)) by (intros s I; apply V', I).
  assert (Fin : forall s s', In s (resolved m) -> In s' (resolved m') -> urn s = urn s' -> kept_shape f s s').
  { intros s s' I I' U. assert (N : ts_id s = ts_id s').
    { apply named_inj; auto. unfold named. unfold urn in U. congruence. }
    apply shape_kept; auto; try (eapply (proj1 (resolved_In _ _)); eassumption).
    apply (says_det (g_statements g') (urn s')); [|apply A', I'].
    rewrite <- U. exact (says_rename r _ _ inj same _ _ (A s I)). }
  assert (TyIn : forall (mm : model) gg s, In s (resolved mm) ->
            says (g_statements gg) (urn s) (shape_description f s) ->
            In (St (urn s) a_type (TIri (smithy (kind_class (ts_body s))))) (g_statements gg)).
  { intros mm gg s _ [S1 _]. destruct (S1 a_type (class (kind_class (ts_body s)))) as (t & It & St); [now left|].
    inversion St; subst. exact It. }
  assert (NoModel : forall sub gg ll s,
            says (g_statements gg) sub ((smithy "smithy_version", text "1.0") :: (a_type, class "Model") :: map (fun s => (smithy "shape", named (ts_id s))) ll) ->
            is_resolved s = true ->
            ~ In (St sub a_type (TIri (smithy (kind_class (ts_body s))))) (g_statements gg)).
  { intros sub gg ll s [_ S2] Rs X. destruct (S2 _ _ X) as (o & [Y|[Y|Y]] & Z).
    - discriminate Y.
    - injection Y as <-. inversion Z as [t N Q|]; subst. clear Z N X.
      destruct (ts_body s) as [[]| | | | | | | | |]; discriminate.
    - apply in_map_iff in Y as (s0 & Y & _). discriminate Y. }
  split.
  - intros s I. assert (X := TyIn m g s I (A s I)). apply (rename_in' r _ _ same) in X. cbn [rename_term urn] in X.
    assert (Rs : is_resolved s = true) by (apply resolved_In in I; tauto).
    destruct (C' _ X) as [Y|[(s' & I' & Y)|(n & Y)]]; cbn in Y.
    + exfalso. change (urn s = match i' with Some i0 => TIri i0 | None => TBlank 0 end) in Y.
      apply (NoModel _ _ _ s B' Rs). rewrite <- Y. exact X.
    + exists s'. split; [exact I'|]. apply Fin; assumption.
    + discriminate Y.
  - intros s' I'. assert (X := TyIn m' g' s' I' (A' s' I')). apply same, in_map_iff in X as ([a p b] & Y & X).
    unfold rename_statement in Y. cbn in Y. injection Y as Y1 Y2 Y3.
    assert (a = urn s') as -> by (destruct a; cbn in Y1; try discriminate Y1; exact Y1). subst p.
    assert (b = TIri (smithy (kind_class (ts_body s')))) as -> by (destruct b; cbn in Y3; try discriminate Y3; exact Y3).
    assert (Rs : is_resolved s' = true) by (apply resolved_In in I'; tauto).
    destruct (C _ X) as [Y|[(s & I & Y)|(n & Y)]]; cbn in Y.
    + exfalso. apply (NoModel _ _ _ s' B Rs). rewrite <- Y. exact X.
    + exists s. split; [exact I|]. apply Fin; auto.
    + discriminate Y.
Qed.
Print Assumptions C35_graph_determines_shapes.

(** That the graph determines the whole model is false. *)
Definition C35_graph_determines_model (different : model -> model -> Prop) : Prop :=
  forall (H : Hasher) (f64_str : Z -> str) (m m' : model) (g g' : graph),
    model_ok m -> model_valid m -> model_ok m' -> model_valid m' ->
    model_to_rdf f64_str m None = (g, None) -> model_to_rdf f64_str m' None = (g', None) ->
    same_graph (g_statements g) (g_statements g') -> ~ different m m'.
Lemma same_statements_same_graph g h : (forall s, In s h <-> In s g) -> same_graph g h.
Proof.
  intros S. exists (fun n => n). split; [auto|].
  assert (E : map (rename_statement (fun n => n)) g = g).
  { rewrite <- (map_id g) at 2. apply map_ext. intros [s p o]. unfold rename_statement. cbn. destruct s, o; reflexivity. }
  rewrite E. exact S.
Qed.

(** Metadata is not written. *)
Definition lost_metadata : model := Model V10 [(lit "domain", VString "motd")] [].
(** Neither are unresolved shapes, even those with traits. *)
Definition lost_unresolved : model :=
  Model V10 [] [(api_id "String", Shape (api_id "String") [(api_id "deprecated", None)] KUnresolved)].
(** Nor the renames of a service. *)
Definition renaming (r : list (shape_id * str)) : shape := Shape (ex_id "Svc") [] (KService (Service "1" [] [] r)).
Definition lost_rename : model := Model V10 [] [(ex_id "Svc", renaming [(ex_id "Foo", lit "Bar")])].
Definition no_rename : model := Model V10 [] [(ex_id "Svc", renaming [])].
(** The elements of an array and the operations of a service are not ordered, and not counted. *)
Definition tagged (l : list value) : shape := Shape (ex_id "S") [(api_id "tags", Some (VArray l))] (KSimple SString).
Definition ab : model := Model V10 [] [(ex_id "S", tagged [VString "a"; VString "b"])].
Definition ba : model := Model V10 [] [(ex_id "S", tagged [VString "b"; VString "a"])].
Definition aa : model := Model V10 [] [(ex_id "S", tagged [VString "a"; VString "a"])].
Definition a1 : model := Model V10 [] [(ex_id "S", tagged [VString "a"])].

Definition differ_in_metadata (a b : model) : Prop := exists k, hm_get str_eqb k (m_metadata a) <> hm_get str_eqb k (m_metadata b).
Definition differ_in_shape_ids (a b : model) : Prop := exists id, ~ (In id (map fst (m_shapes a)) <-> In id (map fst (m_shapes b))).
Definition differ_in_renames (a b : model) : Prop :=
  exists id x y t u, In (id, Shape id t (KService x)) (m_shapes a) /\ In (id, Shape id u (KService y)) (m_shapes b)
                     /\ length (sv_renames x) <> length (sv_renames y).
Definition differ_in_array_order (a b : model) : Prop :=
  exists id s s' t x y, In (id, s) (m_shapes a) /\ In (id, s') (m_shapes b)
    /\ In (t, Some (VArray x)) (ts_traits s) /\ In (t, Some (VArray y)) (ts_traits s') /\ length x = length y /\ x <> y.
Definition differ_in_array_length (a b : model) : Prop :=
  exists id s s' t x y, In (id, s) (m_shapes a) /\ In (id, s') (m_shapes b)
    /\ In (t, Some (VArray x)) (ts_traits s) /\ In (t, Some (VArray y)) (ts_traits s') /\ length x <> length y.

Theorem C35_refuted :
  ~ C35_graph_determines_model differ_in_metadata
  /\ ~ C35_graph_determines_model differ_in_shape_ids
  /\ ~ C35_graph_determines_model differ_in_renames
  /\ ~ C35_graph_determines_model differ_in_array_order
  /\ ~ C35_graph_determines_model differ_in_array_length.
Proof.
  assert (Vid : valid_id (ex_id "Svc")) by (refine (proj1 (sid_from_str_sound "example.motd#Svc" _ _)); vm_compute; reflexivity).
  assert (Vs : valid_id (ex_id "S")) by (refine (proj1 (sid_from_str_sound "example.motd#S" _ _)); vm_compute; reflexivity).
  assert (Vt : valid_id (api_id "tags")) by (refine (proj1 (sid_from_str_sound "smithy.api#tags" _ _)); vm_compute; reflexivity).
  assert (E : @model_ok zero_hasher (model_new V10) /\ model_valid (model_new V10)).
  { split; [apply model_default_ok|intros s []]. }
  assert (VT : forall l k, model_valid (Model V10 [] [(k, tagged l)])).
  { intros l k s I. unfold resolved in I. cbn in I. destruct I as [<-|[]]. split; [exact Vs|]. split; [|exact I].
    intros t [<-|[]]. exact Vt. }
  assert (VR : forall r k, model_valid (Model V10 [] [(k, renaming r)])).
  { intros r k s I. unfold resolved in I. cbn in I. destruct I as [<-|[]]. split; [exact Vid|]. split; [intros t []|]. split; intros t []. }
  repeat split; intros C.
  - refine (C zero_hasher (fun _ => []) lost_metadata (model_new V10) _ _ _ _ (proj1 E) (proj2 E) eq_refl eq_refl _ _).
    + solve_model_ok lost_metadata.
    + intros s [].
    + apply same_statements_same_graph. intros s. reflexivity.
    + exists (lit "domain"). discriminate.
  - refine (C zero_hasher (fun _ => []) lost_unresolved (model_new V10) _ _ _ _ (proj1 E) (proj2 E) eq_refl eq_refl _ _).
    + solve_model_ok lost_unresolved.
    + intros s [].
    + apply same_statements_same_graph. intros s. reflexivity.
    + exists (api_id "String"). intros Q. apply (proj1 Q). now left.
  - refine (C zero_hasher (fun _ => []) lost_rename no_rename _ _ _ (VR _ _) _ (VR _ _) eq_refl eq_refl _ _).
    + split; [split; [|split]|split]; [intros k s [X|[]]; injection X as <- <-; split; [reflexivity|intros N; now destruct N]|..];
        unfold lost_rename, renaming; cbn [m_shapes m_metadata map]; solve_ok.
    + split; [split; [|split]|split]; [intros k s [X|[]]; injection X as <- <-; split; [reflexivity|intros N; now destruct N]|..];
        unfold no_rename, renaming; cbn [m_shapes m_metadata map]; solve_ok.
    + apply same_statements_same_graph. intros s. reflexivity.
    + exists (ex_id "Svc"). do 4 eexists. split; [now left|]. split; [now left|]. discriminate.
  - refine (C zero_hasher (fun _ => []) ab ba _ _ _ (VT _ _) _ (VT _ _) eq_refl eq_refl _ _).
    + split; [split; [|split]|split]; [intros k s [X|[]]; injection X as <- <-; split; [reflexivity|intros N; now destruct N]|..];
        unfold ab, tagged; cbn [m_shapes m_metadata map]; solve_ok.
    + split; [split; [|split]|split]; [intros k s [X|[]]; injection X as <- <-; split; [reflexivity|intros N; now destruct N]|..];
        unfold ba, tagged; cbn [m_shapes m_metadata map]; solve_ok.
    + apply same_statements_same_graph. intros s. unfold ab, ba, tagged. vm_compute. tauto.
    + exists (ex_id "S"). do 5 eexists. split; [now left|]. split; [now left|]. split; [now left|]. split; [now left|].
      split; [reflexivity|discriminate].
  - refine (C zero_hasher (fun _ => []) aa a1 _ _ _ (VT _ _) _ (VT _ _) eq_refl eq_refl _ _).
    + split; [split; [|split]|split]; [intros k s [X|[]]; injection X as <- <-; split; [reflexivity|intros N; now destruct N]|..];
        unfold aa, tagged; cbn [m_shapes m_metadata map]; solve_ok.
    + split; [split; [|split]|split]; [intros k s [X|[]]; injection X as <- <-; split; [reflexivity|intros N; now destruct N]|..];
        unfold a1, tagged; cbn [m_shapes m_metadata map]; solve_ok.
    + apply same_statements_same_graph. intros s. vm_compute. tauto.
    + exists (ex_id "S"). do 5 eexists. split; [now left|]. split; [now left|]. split; [now left|]. split; [now left|]. discriminate.
Qed.
Print Assumptions C35_refuted.

Ltac member_in := repeat first [left; reflexivity | right].
(** The message-of-the-day service meets the hypotheses, with and without a name for the model. *)
Example C35_ex :
  @model_ok zero_hasher motd /\ model_valid motd /\ length (resolved motd) = 7
  /\ (forall s, In s (resolved motd) -> iri_from_str (lit "http://example.org/model") <> shape_to_iri (ts_id s))
  /\ exists g, model_to_rdf (fun _ => []) motd (Some (iri_from_str (lit "http://example.org/model"))) = (g, None)
       /\ length (g_statements g) = 52.
Proof.
  split; [solve_model_ok motd|]. split; [|split; [vm_compute; reflexivity|split]].
  - assert (Q : forall s, In s [lit "example.motd#Date"; lit "example.motd#GetMessageInput"; lit "example.motd#GetMessageOutput";
       lit "example.motd#BadDateValue"; lit "example.motd#GetMessage"; lit "example.motd#Message"; lit "example.motd#MessageOfTheDay";
       lit "smithy.api#String"; lit "smithy.api#pattern"; lit "smithy.api#error"; lit "smithy.api#deprecated"; lit "smithy.api#readonly";
       lit "smithy.api#documentation"] -> exists id, sid_from_str s = Ok id /\ valid_id id).
    { intros s I. assert (X : exists id, sid_from_str s = Ok id).
      { cbn [In] in I. repeat destruct I as [<-|I]; try (destruct I; fail); eexists; vm_compute; reflexivity. }
      destruct X as (id & X). exists id. split; [exact X|]. exact (proj1 (sid_from_str_sound _ _ X)). }
    assert (Vi : forall n, In n [lit "Date"; lit "GetMessageInput"; lit "GetMessageOutput"; lit "BadDateValue"; lit "GetMessage"; lit "Message"; lit "MessageOfTheDay"] ->
                 valid_id (SID ex_ns n None)).
    { intros n I. destruct (Q (lit "example.motd#" ++ n)) as (id & X & Vx).
      - cbn [In] in I. repeat destruct I as [<-|I]; try (destruct I; fail); cbn [In]; tauto.
      - assert (Y : id = SID ex_ns n None); [|subst; exact Vx].
        cbn [In] in I. repeat destruct I as [<-|I]; try (destruct I; fail); vm_compute in X; injection X as <-; reflexivity. }
    assert (Va : forall n, In n [lit "String"; lit "pattern"; lit "error"; lit "deprecated"; lit "readonly"; lit "documentation"] ->
                 valid_id (SID "smithy.api" n None)).
    { intros n I. destruct (Q (lit "smithy.api#" ++ n)) as (id & X & Vx).
      - cbn [In] in I. repeat destruct I as [<-|I]; try (destruct I; fail); cbn [In]; tauto.
      - assert (Y : id = SID "smithy.api" n None); [|subst; exact Vx].
        cbn [In] in I. repeat destruct I as [<-|I]; try (destruct I; fail); vm_compute in X; injection X as <-; reflexivity. }
    assert (R : resolved motd = [motd_date; motd_input; motd_output; motd_error; motd_op; motd_resource; motd_service]) by reflexivity.
    intros s I. rewrite R in I. cbn [In] in I.
    repeat destruct I as [<-|I]; try (destruct I; fail);
      (split; [apply Vi; member_in|]);
      (split; [intros t It; cbn [In ts_traits] in It; repeat destruct It as [<-|It]; try (destruct It; fail); apply Va; member_in|]);
      cbn [ts_body body_valid motd_date motd_input motd_output motd_error motd_op motd_resource motd_service];
      unfold id_valid, ids_valid, member_valid, traits_named; cbn;
      repeat match goal with
             | |- True => constructor
             | |- _ /\ _ => split
             | |- forall _, _ => intro
             | Ie : _ \/ _ |- _ => destruct Ie as [Ie|Ie]
             | Ie : False |- _ => destruct Ie
             | Ie : Some _ = Some _ |- _ => injection Ie as <-
             | Ie : None = Some _ |- _ => discriminate Ie
             | Ie : _ = _ |- _ => subst; cbn
             end;
      first [match goal with I0 : In _ (ms_traits _) |- _ => destruct I0 end | apply Vi; member_in | apply Va; member_in].
  - assert (R : resolved motd = [motd_date; motd_input; motd_output; motd_error; motd_op; motd_resource; motd_service]) by reflexivity.
    intros s I E. apply (f_equal iri_scheme) in E. rewrite R in I. cbn [In] in I.
    repeat destruct I as [<-|I]; try (destruct I; fail); vm_compute in E; discriminate E.
  - eexists. split; [reflexivity|vm_compute; reflexivity].
Qed.
