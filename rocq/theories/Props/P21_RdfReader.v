(** C52: the RDF reader (atelier-rdf/src/reader.rs). *)
From Verif.Model Require Import RdfReader.
From Verif.Spec Require Import IdentitySpec RdfSpec RdfReaderSpec Witness.
From Verif.Proofs Require Import BaseFacts HashMapFacts ModelFacts IdentityFacts RdfFacts RdfGraphFacts RdfReaderFacts.

(* ---------------------------------------------------------------- C52 *)
(** Reading gives a model exactly if the graph has the model that is asked for, with one known version and no
    shapes; the model is then the empty one. *)
Theorem C52_read :
  forall (H : Hasher) (g : graph) (name : option iri) (m : model),
    rdf_to_model g name = Ok m
    <-> m = model_new V10
        /\ exists s v, the_model g name s /\ written_version g s v /\ known_version v /\ ~ has_a_shape g s.
Proof.
  intros H g name m. rewrite <- reading_is. split.
  - intros R. inversion R; subst. split; [reflexivity|eauto 6].
  - intros (-> & s & v & A & B & C & D). eapply reading_empty; eassumption.
Qed.
Print Assumptions C52_read.

(** Which error there is: no model (or not exactly one), not exactly one literal as its version, a version that
    is not known. There is no other. *)
Theorem C52_errors :
  forall (H : Hasher) (g : graph) (name : option iri) (e : error),
    rdf_to_model g name = Err e
    <-> (e = EDeserialization (lit "model") /\ ~ exists s, the_model g name s)
        \/ (exists s, the_model g name s
            /\ ((e = EDeserialization (lit "version") /\ ~ exists v, written_version g s v)
                \/ exists v, written_version g s v /\ ~ known_version v /\ e = EInvalidVersionNumber (Some v))).
Proof.
  intros H g name e. rewrite <- reading_is. split.
  - intros R. inversion R; subst; eauto 9.
  - intros [[-> N]|(s & A & [[-> N]|(v & B & C & ->)])].
    + apply reading_no_model, N.
    + eapply reading_no_version; eassumption.
    + eapply reading_bad_version; eassumption.
Qed.
Print Assumptions C52_errors.

(** A model that has a shape makes the reader panic. *)
Theorem C52_shapes_panic :
  forall (H : Hasher) (g : graph) (name : option iri),
    rdf_to_model g name = Panic
    <-> exists s v, the_model g name s /\ written_version g s v /\ known_version v /\ has_a_shape g s.
Proof.
  intros H g name. rewrite <- reading_is. split.
  - intros R. inversion R; subst; eauto 7.
  - intros (s & v & A & B & C & D). eapply reading_shape; eassumption.
Qed.
Print Assumptions C52_shapes_panic.

(** What is read is a matter of the statements, not of their order or of the names of blank nodes. *)
Theorem C52_same_graph :
  forall (H : Hasher) (g h : graph) (name : option iri),
    same_graph (g_statements g) (g_statements h) -> rdf_to_model g name = rdf_to_model h name.
Proof.
  intros H g h name (f & inj & same). symmetry. apply reading_is. eapply reading_rename; [exact inj|exact same|].
  apply read_reading.
Qed.
Print Assumptions C52_same_graph.

(** The graph of a model, read back under the name it was written with, or under none: without resolved shapes the
    empty model, else a panic. Under another name there is no model in it. *)
Theorem C52_round_trip :
  forall (H : Hasher) (f64_str : Z -> str) (m : model) (name name' : option iri) (g : graph),
    model_ok m -> model_valid m ->
    (forall i s, name = Some i -> In s (resolved m) -> i <> shape_to_iri (ts_id s)) ->
    model_to_rdf f64_str m name = (g, None) ->
    ((name' = None \/ name' = name) ->
       (resolved m = [] -> rdf_to_model g name' = Ok (model_new (m_version m)))
       /\ (resolved m <> [] -> rdf_to_model g name' = Panic))
    /\ (name' <> None -> name' <> name -> rdf_to_model g name' = Err (EDeserialization (lit "model"))).
Proof.
  intros H f m name name' g OK V NI E. destruct (described f m name OK V NI) as (g' & G & _ & [B1 B2] & _).
  rewrite E in G. injection G as <-. pose proof (only_model f m name g E) as U.
  set (subject := match name with None => TBlank 0 | Some i => TIri i end) in *.
  assert (M : is_a_model g subject).
  { destruct (B1 a_type (class "Model") (or_intror (or_introl eq_refl))) as (t & I & S).
    inversion S; subst. exact I. }
  split.
  - intros N. assert (T : the_model g name' subject).
    { split; [exact M|]. destruct N as [-> | ->]; [exact U|]. destruct name; [reflexivity|exact U]. }
    assert (W : written_version g subject (lit "1.0")).
    { exists DPlain. split.
      - destruct (B1 (smithy "smithy_version") (text "1.0") (or_introl eq_refl)) as (t & I & S). inversion S; subst. exact I.
      - intros o I. destruct (B2 _ _ I) as (x & [K|[K|K]] & S).
        + apply (f_equal snd) in K. cbn [snd] in K. subst x. inversion S; subst. reflexivity.
        + apply (f_equal fst) in K. cbn [fst] in K. vm_compute in K. discriminate K.
        + apply in_map_iff in K as (s & K & _). apply (f_equal fst) in K. cbn [fst] in K. vm_compute in K. discriminate K. }
    assert (K : known_version (lit "1.0")) by (right; reflexivity).
    split; intros R.
    + destruct (m_version m). apply reading_is. eapply reading_empty; try eassumption. intros (o & I).
      destruct (B2 _ _ I) as (x & [Q|[Q|Q]] & S).
      * apply (f_equal fst) in Q. cbn [fst] in Q. vm_compute in Q. discriminate Q.
      * apply (f_equal fst) in Q. cbn [fst] in Q. vm_compute in Q. discriminate Q.
      * rewrite R in Q. destruct Q.
    + apply reading_is. eapply reading_shape; try eassumption. destruct (resolved m) as [|s l]; [congruence|].
      destruct (B1 (smithy "shape") (named (ts_id s)) (or_intror (or_intror (or_introl eq_refl)))) as (t & I & _).
      exists t. exact I.
  - intros N1 N2. apply reading_is. apply reading_no_model. intros (s & A & B). destruct name' as [i|]; [|congruence].
    apply U in A. subst s. unfold subject in B. destruct name; [|discriminate B]. congruence.
Qed.
Print Assumptions C52_round_trip.

(** So the claim one would like to make does not hold: a model with a shape cannot be read back from its graph. *)
Definition C52_models_can_be_read_back : Prop :=
  forall (H : Hasher) (f64_str : Z -> str) (m : model) (g : graph),
    model_ok m -> model_valid m -> model_to_rdf f64_str m None = (g, None) ->
    exists m', rdf_to_model g None = Ok m' /\ kept_model f64_str m m'.
Definition one_string : model := Model V10 [] [(ex_id "S", Shape (ex_id "S") [] (KSimple SString))].
Theorem C52_models_can_be_read_back_refuted : ~ C52_models_can_be_read_back.
Proof.
  intros Q.
  assert (Vs : valid_id (ex_id "S")) by (refine (proj1 (sid_from_str_sound "example.motd#S" _ _)); vm_compute; reflexivity).
  assert (OK : @model_ok zero_hasher one_string) by solve_model_ok one_string.
  assert (V : model_valid one_string).
  { intros x I. cbn in I. destruct I as [<-|[]]. split; [exact Vs|]. split; [intros t []|exact Logic.I]. }
  destruct (described (H := zero_hasher) (fun _ => []) one_string None OK V) as (g & E & _); [discriminate|].
  destruct (Q zero_hasher (fun _ => []) one_string g OK V E) as (m' & R & _).
  destruct (C52_round_trip zero_hasher (fun _ => []) one_string None None g OK V) as [K _]; [discriminate|exact E|].
  rewrite (proj2 (K (or_introl eq_refl))) in R; [discriminate R|]. discriminate.
Qed.
Print Assumptions C52_models_can_be_read_back_refuted.

(** Reading text is not implemented: it always panics. *)
Theorem C52_text_panics : forall text, rdf_reader_read text = Panic.
Proof. reflexivity. Qed.
Print Assumptions C52_text_panics.

(** Some graphs: two models; a version that is not literal; a version that is given twice, differently. *)
Example C52_ex :
  let st s p o := St (TBlank s) p o in
  let typed s := st s a_type (TIri (smithy "Model")) in
  let versioned s v := st s (smithy "smithy_version") (literal v) in
  let read l name := @rdf_to_model zero_hasher (Graph l 9) name in
  read [versioned 3 (lit "1"); typed 3; versioned 3 (lit "1"); typed 3] None = Ok (model_new V10)
  /\ read [versioned 3 (lit "1"); typed 3; versioned 4 (lit "1"); typed 4] None = Err (EDeserialization (lit "model"))
  /\ read [versioned 3 (lit "1"); typed 3; versioned 3 (lit "1.0")] None = Err (EDeserialization (lit "version"))
  /\ read [versioned 3 (lit "2.0"); typed 3] None = Err (EInvalidVersionNumber (Some (lit "2.0")))
  /\ read [typed 3; st 3 (smithy "smithy_version") (TBlank 4)] None = Err (EDeserialization (lit "version"))
  /\ read [versioned 3 (lit "1"); typed 3; st 3 (smithy "shape") (TBlank 4)] None = Panic.
Proof. repeat split; vm_compute; reflexivity. Qed.
