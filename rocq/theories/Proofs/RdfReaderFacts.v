(** What the RDF reader finds in a graph, and what it finds in a graph of the writer. *)
From Verif.Model Require Import RdfReader.
From Verif.Spec Require Import IdentitySpec RdfSpec RdfReaderSpec.
From Verif.Proofs Require Import BaseFacts ValueFacts HashMapFacts ModelFacts UrnFacts RdfFacts RdfKeepFacts RdfGraphFacts.

(** ** Equality of terms *)
Lemma opt_eqb_eq a b : opt_eqb a b = true <-> a = b.
Proof.
  destruct a, b; cbn; try (split; discriminate); [|split; reflexivity].
  rewrite str_eqb_eq. split; congruence.
Qed.
Lemma iri_eqb_eq a b : iri_eqb a b = true <-> a = b.
Proof.
  destruct a, b; unfold iri_eqb; cbn [Urn.iri_scheme Urn.iri_authority Urn.iri_path Urn.iri_query Urn.iri_fragment].
  rewrite !andb_true_iff, !opt_eqb_eq, str_eqb_eq. split; [intros [[[[-> ->] ->] ->] ->]; reflexivity|].
  intros [=]; repeat split; assumption.
Qed.
Lemma term_eqb_eq a b : term_eqb a b = true <-> a = b.
Proof.
  destruct a, b; cbn; try (split; discriminate).
  - rewrite iri_eqb_eq. split; congruence.
  - rewrite Nat.eqb_eq. split; congruence.
  - rewrite andb_true_iff, str_eqb_eq. split.
    + intros [-> E]. destruct d, d0; try discriminate E; reflexivity.
    + intros [= -> ->]. split; [reflexivity|destruct d0; reflexivity].
Qed.

(** ** Sets *)
Lemma to_set_In l x : In x (to_set l) <-> In x l.
Proof.
  revert x. induction l as [|y l IH]; intros x; [reflexivity|]. cbn.
  destruct (existsb (term_eqb y) (to_set l)) eqn:E.
  - apply existsb_exists in E as (z & I & Q). apply term_eqb_eq in Q as ->. apply IH in I.
    split; [intros K; right; apply IH, K|intros [->|K]; apply IH; assumption].
  - cbn. rewrite IH. reflexivity.
Qed.
Lemma to_set_nodup l : NoDup (to_set l).
Proof.
  induction l as [|y l IH]; [constructor|]. cbn.
  destruct (existsb (term_eqb y) (to_set l)) eqn:E; [exact IH|]. constructor; [|exact IH].
  intros I. assert (existsb (term_eqb y) (to_set l) = true); [|congruence].
  apply existsb_exists. exists y. split; [exact I|]. now apply term_eqb_eq.
Qed.
(** A set has one element exactly when all are equal to it. *)
Lemma to_set_single l x : to_set l = [x] <-> In x l /\ forall y, In y l -> y = x.
Proof.
  split.
  - intros E. split; [apply to_set_In; rewrite E; now left|].
    intros y I. apply to_set_In in I. rewrite E in I. destruct I as [->|[]]. reflexivity.
  - intros [I A]. pose proof (to_set_nodup l) as N.
    assert (A' : forall y, In y (to_set l) -> y = x) by (intros y K; apply A, to_set_In, K).
    apply to_set_In in I. destruct (to_set l) as [|a [|b r]]; [destruct I| |].
    + rewrite (A' a (or_introl eq_refl)). reflexivity.
    + inversion N as [|? ? N1 _]; subst. destruct N1.
      rewrite (A' a (or_introl eq_refl)), (A' b (or_intror (or_introl eq_refl))). now left.
Qed.

(** ** Looking at the graph *)
Lemma objects_In g s p o : In o (objects_for g s p) <-> states g s p o.
Proof.
  unfold objects_for, states. rewrite to_set_In, in_map_iff. split.
  - intros (st & <- & I). apply filter_In in I as [I Q]. apply andb_true_iff in Q as [Q1 Q2].
    apply term_eqb_eq in Q1 as <-. apply iri_eqb_eq in Q2 as <-. destruct st. exact I.
  - intros I. exists (St s p o). split; [reflexivity|]. apply filter_In. split; [exact I|].
    apply andb_true_iff. split; [now apply term_eqb_eq|now apply iri_eqb_eq].
Qed.
Lemma objects_single g s p o : objects_for g s p = [o] <-> the_only g s p o.
Proof.
  unfold the_only. split.
  - intros E. split; [apply objects_In; rewrite E; now left|].
    intros o' I. apply objects_In in I. rewrite E in I. destruct I as [->|[]]. reflexivity.
  - intros [I A]. unfold objects_for. apply to_set_single. split.
    + apply to_set_In. apply objects_In, I.
    + intros y K. apply A, objects_In. apply to_set_In, K.
Qed.
Lemma contains_spec g s p o : contains_all g s p o = true <-> states g s p o.
Proof.
  unfold contains_all, states. rewrite existsb_exists. split.
  - intros (st & I & Q). apply andb_true_iff in Q as [Q Q3]. apply andb_true_iff in Q as [Q1 Q2].
    apply term_eqb_eq in Q1 as <-. apply iri_eqb_eq in Q2 as <-. apply term_eqb_eq in Q3 as <-. destruct st. exact I.
  - intros I. exists (St s p o). split; [exact I|]. apply andb_true_iff. split; [apply andb_true_iff; split|].
    + now apply term_eqb_eq. + now apply iri_eqb_eq. + now apply term_eqb_eq.
Qed.
Lemma matches_In g p o s : In s (map st_subject (matches g p o)) <-> states g s p o.
Proof.
  unfold matches, states. rewrite in_map_iff. split.
  - intros (st & <- & I). apply filter_In in I as [I Q]. apply andb_true_iff in Q as [Q1 Q2].
    apply iri_eqb_eq in Q1 as <-. apply term_eqb_eq in Q2 as <-. destruct st. exact I.
  - intros I. exists (St s p o). split; [reflexivity|]. apply filter_In. split; [exact I|].
    apply andb_true_iff. split; [now apply iri_eqb_eq|now apply term_eqb_eq].
Qed.

Lemma subject_spec g name : 
  (exists s, rdf_model_subject g name = Ok s /\ the_model g name s)
  \/ (rdf_model_subject g name = Err (EDeserialization (lit "model")) /\ ~ exists s, the_model g name s).
Proof.
  unfold rdf_model_subject, the_model, is_a_model. destruct name as [i|].
  - destruct (contains_all g (TIri i) a_type (TIri (smithy "Model"))) eqn:E.
    + left. exists (TIri i). split; [reflexivity|]. split; [apply contains_spec, E|reflexivity].
    + right. split; [reflexivity|]. intros (s & I & ->). apply contains_spec in I. congruence.
  - assert (Q : forall s, to_set (map st_subject (matches g a_type (TIri (smithy "Model")))) = [s]
                <-> states g s a_type (TIri (smithy "Model")) /\ (forall s', states g s' a_type (TIri (smithy "Model")) -> s' = s)).
    { intros s. rewrite to_set_single, matches_In. split; intros [A B]; (split; [exact A|]); intros s' K; apply B, matches_In, K. }
    destruct (to_set (map st_subject (matches g a_type (TIri (smithy "Model"))))) as [|s [|s' r]] eqn:E.
    + right. split; [reflexivity|]. intros (s & K). apply Q in K. discriminate K.
    + left. exists s. split; [reflexivity|]. apply Q. reflexivity.
    + right. split; [reflexivity|]. intros (x & K). apply Q in K. discriminate K.
Qed.
Lemma the_model_unique g name s s' : the_model g name s -> the_model g name s' -> s = s'.
Proof. unfold the_model. destruct name; intros [A B] [A' B']; [congruence|apply B', A]. Qed.
Lemma version_text_spec g s :
  (exists v, rdf_literal_string g s (smithy "smithy_version") "version" None = Ok v /\ written_version g s v)
  \/ (rdf_literal_string g s (smithy "smithy_version") "version" None = Err (EDeserialization (lit "version"))
      /\ ~ exists v, written_version g s v).
Proof.
  unfold rdf_literal_string, written_version.
  pose proof (fun o => objects_single g s (smithy "smithy_version") o) as Q.
  destruct (objects_for g s (smithy "smithy_version")) as [|o [|o' r]] eqn:E.
  - right. split; [reflexivity|]. intros (v & d & K). apply Q in K. discriminate K.
  - destruct o as [i|n|v d].
    + right. split; [reflexivity|]. intros (v & d & K). apply Q in K. discriminate K.
    + right. split; [reflexivity|]. intros (v & d & K). apply Q in K. discriminate K.
    + left. exists v. split; [reflexivity|]. exists d. apply Q. reflexivity.
  - right. split; [destruct o; reflexivity|]. intros (v & d & K). apply Q in K. discriminate K.
Qed.
Lemma written_version_unique g s v v' : written_version g s v -> written_version g s v' -> v = v'.
Proof. intros (d & A & B) (d' & A' & B'). specialize (B' _ A). congruence. Qed.
Lemma version_spec v :
  (known_version v /\ Json.version_from_str v = Ok V10)
  \/ (~ known_version v /\ Json.version_from_str v = Err (EInvalidVersionNumber (Some v))).
Proof.
  unfold known_version, Json.version_from_str.
  destruct (str_eqb v (lit "1")) eqn:A; [left; split; [left; apply str_eqb_eq, A|reflexivity]|].
  destruct (str_eqb v (lit "1.0")) eqn:B; [left; split; [right; apply str_eqb_eq, B|reflexivity]|].
  right. split; [|reflexivity]. apply str_eqb_neq in A, B. tauto.
Qed.

Section Read.
  Context `{H : Hasher}.
  (** All the ways reading can go. *)
  Inductive reading (g : graph) (name : option iri) : result model -> Prop :=
  | reading_no_model : (~ exists s, the_model g name s) -> reading g name (Err (EDeserialization (lit "model")))
  | reading_no_version s : the_model g name s -> (~ exists v, written_version g s v) ->
      reading g name (Err (EDeserialization (lit "version")))
  | reading_bad_version s v : the_model g name s -> written_version g s v -> ~ known_version v ->
      reading g name (Err (EInvalidVersionNumber (Some v)))
  | reading_shape s v : the_model g name s -> written_version g s v -> known_version v -> has_a_shape g s ->
      reading g name Panic
  | reading_empty s v : the_model g name s -> written_version g s v -> known_version v -> ~ has_a_shape g s ->
      reading g name (Ok (model_new V10)).
  Lemma read_reading g name : reading g name (rdf_to_model g name).
  Proof.
    unfold rdf_to_model. destruct (subject_spec g name) as [(s & -> & M)|[-> N]]; [|now constructor].
    cbn [rbind]. destruct (version_text_spec g s) as [(v & -> & W)|[-> N]]; [|econstructor; eassumption].
    cbn [rbind]. destruct (version_spec v) as [[K ->]|[K ->]]; [|econstructor; eassumption].
    cbn [rbind]. destruct (objects_for g s (smithy "shape")) as [|o l] eqn:E.
    - eapply reading_empty; try eassumption. intros (o & I). apply objects_In in I. rewrite E in I. destruct I.
    - cbn. eapply reading_shape; try eassumption. exists o. apply objects_In. rewrite E. now left.
  Qed.
  Lemma reading_det g name r r' : reading g name r -> reading g name r' -> r = r'.
  Proof.
    intros A B. destruct A, B; try reflexivity; try (exfalso; eauto; fail);
      repeat match goal with
        | X : the_model g name ?a, Y : the_model g name ?b |- _ =>
            lazymatch a with b => fail | _ => pose proof (the_model_unique _ _ _ _ X Y); subst b end
        end;
      try (exfalso; eauto; fail);
      repeat match goal with
        | X : written_version g ?s ?a, Y : written_version g ?s ?b |- _ =>
            lazymatch a with b => fail | _ => pose proof (written_version_unique _ _ _ _ X Y); subst b end
        end; try contradiction; reflexivity.
  Qed.
  Lemma reading_is g name r : reading g name r <-> rdf_to_model g name = r.
  Proof.
    split; [intros A; eapply reading_det; [apply read_reading|exact A]|intros <-; apply read_reading].
  Qed.
End Read.

(** ** Graphs of the writer: one model only *)
Definition is_model_type (x : iri * obj) : bool :=
  iri_eqb (fst x) a_type && match snd x with OTerm t => term_eqb t (TIri (smithy "Model")) | ONode _ => false end.
Fixpoint plain (o : obj) : bool :=
  match o with
  | OTerm _ => true
  | ONode ps => forallb (fun x => negb (is_model_type x) && plain (snd x)) ps
  end.
Definition plain_props (ps : description) : bool := forallb (fun x => negb (is_model_type x) && plain (snd x)) ps.
Definition not_model (st : statement) : Prop := ~ (st_predicate st = a_type /\ st_object st = TIri (smithy "Model")).

Lemma plain_props_flat ps : Forall (fun x => forall n s p l n', plain (snd x) = true -> is_model_type (p, snd x) = false ->
    flat_obj (snd x) n s p = (l, n') -> Forall not_model l) ps ->
  forall n s l n', plain_props ps = true -> flat_props s ps n = (l, n') -> Forall not_model l.
Proof.
  induction 1 as [|[p x] ps Hx _ IH]; intros n s l n' P E.
  - injection E as <- _. constructor.
  - cbn [flat_with] in E. destruct (flat_obj x n s p) as [a n1] eqn:Ea.
    destruct (flat_with flat_obj s ps n1) as [b n2] eqn:Eb. injection E as <- _.
    cbn in P. apply andb_true_iff in P as [P P2]. apply andb_true_iff in P as [P0 P1].
    apply negb_true_iff in P0. apply Forall_app. split.
    + eapply Hx; [exact P1|exact P0|exact Ea].
    + eapply IH; [exact P2|exact Eb].
Qed.
Lemma plain_flat o : forall n s p l n', plain o = true -> is_model_type (p, o) = false ->
  flat_obj o n s p = (l, n') -> Forall not_model l.
Proof.
  induction o as [t|ps IH] using obj_ind'; intros n s p l n' P Q E.
  - injection E as <- _. constructor; [|constructor]. intros [E' E].
    unfold st_predicate in E'. unfold st_object in E. rewrite E', E in Q. vm_compute in Q. discriminate Q.
  - cbn [flat_obj] in E. destruct (flat_with flat_obj (TBlank n) ps (S n)) as [b n1] eqn:Eb. injection E as <- _.
    constructor; [intros [_ E]; discriminate E|]. eapply plain_props_flat; [|exact P|exact Eb].
    eapply Forall_impl; [|exact IH]. cbn. intros x K. exact K.
Qed.
Lemma plain_props_statements ps n s l n' : plain_props ps = true -> flat_props s ps n = (l, n') -> Forall not_model l.
Proof.
  apply plain_props_flat. apply Forall_forall. intros x _ n0 s0 p l0 n0'. apply plain_flat.
Qed.

Lemma urn_scheme id : iri_scheme (shape_to_iri id) = Some (lit "urn").
Proof.
  unfold shape_to_iri, iri_from_str. set (t := replace_ch dollar slash _).
  change (split_scheme (lit "urn:" ++ urn_nid ++ t)) with (Some (lit "urn"), urn_nid ++ t). cbv iota beta.
  destruct (split_authority (urn_nid ++ t)) as [a s2]. destruct (break_at [qmark; hash_ch] s2) as [b s3].
  repeat match goal with |- iri_scheme (match ?x with _ => _ end) = _ => destruct x end; try reflexivity;
    repeat match goal with |- context [match ?x with _ => _ end] => destruct x end; reflexivity.
Qed.
Lemma named_not_model id : iri_eqb (shape_to_iri id) (smithy "Model") = false.
Proof.
  destruct (iri_eqb (shape_to_iri id) (smithy "Model")) eqn:E; [|reflexivity].
  apply iri_eqb_eq in E. apply (f_equal iri_scheme) in E. rewrite urn_scheme in E. vm_compute in E. discriminate E.
Qed.
Lemma plain_named p id : negb (is_model_type (p, named id)) && plain (named id) = true.
Proof.
  rewrite andb_true_r. unfold is_model_type, named. cbn [fst snd]. unfold term_eqb.
  rewrite named_not_model, andb_false_r. reflexivity.
Qed.

Lemma plain_text p s : negb (is_model_type (p, text s)) && plain (text s) = true.
Proof. rewrite andb_true_r. unfold is_model_type, text. cbn [fst snd]. unfold term_eqb. rewrite andb_false_r. reflexivity. Qed.
Lemma plain_node p ps : plain_props ps = true -> negb (is_model_type (p, ONode ps)) && plain (ONode ps) = true.
Proof. intros P. unfold is_model_type. cbn [fst snd]. rewrite andb_false_r. exact P. Qed.
Lemma plain_cons x ps : negb (is_model_type x) && plain (snd x) = true -> plain_props ps = true -> plain_props (x :: ps) = true.
Proof. intros A B. change (plain_props (x :: ps)) with (negb (is_model_type x) && plain (snd x) && plain_props ps). now rewrite A, B. Qed.
Lemma plain_app a b : plain_props a = true -> plain_props b = true -> plain_props (a ++ b) = true.
Proof. unfold plain_props. intros A B. now rewrite forallb_app, A, B. Qed.
Lemma plain_map {A} (f : A -> iri * obj) l :
  (forall x, In x l -> negb (is_model_type (f x)) && plain (snd (f x)) = true) -> plain_props (map f l) = true.
Proof. intros Q. apply forallb_forall. intros y I. apply in_map_iff in I as (x & <- & I). apply Q, I. Qed.
Lemma other_type p i : iri_eqb i (smithy "Model") = false -> negb (is_model_type (p, OTerm (TIri i))) && plain (OTerm (TIri i)) = true.
Proof. intros Q. rewrite andb_true_r. unfold is_model_type. cbn [fst snd]. unfold term_eqb. rewrite Q, andb_false_r. reflexivity. Qed.

Section Plain.
  Variable f64_str : Z -> str.
  Lemma plain_value v : forall p, negb (is_model_type (p, value_obj f64_str v)) && plain (value_obj f64_str v) = true.
  Proof.
    induction v as [vs IH|vs IH|x|b|s| ] using value_ind'; intros p.
    - cbn [value_obj]. apply plain_node. apply plain_cons; [apply other_type; vm_compute; reflexivity|].
      apply plain_map. intros x I. cbn [fst snd]. exact (proj1 (Forall_forall _ _) IH x I _).
    - cbn [value_obj]. apply plain_node. apply plain_cons; [apply other_type; vm_compute; reflexivity|].
      apply plain_map. intros x I. cbn [fst snd]. apply plain_node. apply plain_cons; [apply plain_text|].
      apply plain_cons; [exact (proj1 (Forall_forall _ _) IH x I _)|reflexivity].
    - destruct x; unfold is_model_type; cbn [fst snd value_obj]; unfold term_eqb; rewrite andb_false_r; reflexivity.
    - unfold is_model_type; cbn [fst snd value_obj]; unfold term_eqb; rewrite andb_false_r; reflexivity.
    - apply plain_text.
    - apply other_type. vm_compute. reflexivity.
  Qed.
  Lemma plain_traits ts : plain_props (trait_properties f64_str ts) = true.
  Proof.
    apply plain_map. intros [t v] _. cbn [snd]. apply plain_node. apply plain_cons; [apply plain_named|].
    destruct v as [v|]; [|reflexivity]. apply plain_cons; [apply plain_value|reflexivity].
  Qed.
  Lemma plain_member m : negb (is_model_type (member_property f64_str m)) && plain (snd (member_property f64_str m)) = true.
  Proof.
    unfold member_property. cbn [snd]. apply plain_node. apply plain_cons; [apply plain_text|].
    apply plain_cons; [apply plain_named|]. apply plain_traits.
  Qed.
  Lemma plain_ids p l : plain_props (ids_properties p l) = true.
  Proof. apply plain_map. intros x _. apply plain_named. Qed.
  Lemma plain_id p o : plain_props (id_properties p o) = true.
  Proof. destruct o; [|reflexivity]. apply plain_cons; [apply plain_named|reflexivity]. Qed.
  Lemma plain_numbered l : forall i, plain_props (numbered i l) = true.
  Proof.
    induction l as [|[n t] l IH]; intros i; [reflexivity|]. cbn [numbered]. apply plain_cons; [|apply IH].
    apply plain_node. apply plain_cons; [apply plain_text|]. apply plain_cons; [apply plain_named|reflexivity].
  Qed.
  Lemma plain_identifiers l : plain_props (identifiers_properties l) = true.
  Proof.
    destruct l as [|x l]; [reflexivity|]. unfold identifiers_properties. apply plain_cons; [|reflexivity].
    apply plain_node. apply plain_cons; [apply other_type; vm_compute; reflexivity|apply plain_numbered].
  Qed.
  Lemma plain_body b : plain_props (body_properties f64_str b) = true.
  Proof.
    destruct b as [s|m|m|k v|ms|ms|s|o|r| ]; cbn [body_properties]; try reflexivity;
      repeat match goal with
        | |- plain_props (_ ++ _) = true => apply plain_app
        | |- plain_props (_ :: _) = true => apply plain_cons
        | |- plain_props [] = true => reflexivity
        | |- plain_props (ids_properties _ _) = true => apply plain_ids
        | |- plain_props (id_properties _ _) = true => apply plain_id
        | |- plain_props (identifiers_properties _) = true => apply plain_identifiers
        | |- plain_props (map _ _) = true => apply plain_map; intros x _; apply plain_member
        | |- negb (is_model_type (member_property _ _)) && _ = true => apply plain_member
        | |- _ => apply plain_text
        end.
  Qed.
  Lemma plain_shape s : plain_props (shape_description f64_str s) = true.
  Proof.
    unfold shape_description. apply plain_cons; [|apply plain_app; [apply plain_body|apply plain_traits]].
    unfold class. cbn [snd]. apply other_type. destruct (ts_body s) as [[]| | | | | | | | | ]; vm_compute; reflexivity.
  Qed.
  Lemma all_not_model the_model l : forall n L n', all_statements f64_str the_model l n = (L, n') -> Forall not_model L.
  Proof.
    induction l as [|s l IH]; intros n L n' E; [injection E as <- _; constructor|].
    cbn [all_statements] in E. unfold shape_statements in E. destruct (is_unresolved (ts_body s)) eqn:U.
    - destruct (all_statements f64_str the_model l n) as [b n2] eqn:Eb. injection E as <- _. eapply IH, Eb.
    - destruct (flat_with flat_obj (TIri (shape_to_iri (ts_id s))) (shape_description f64_str s) n) as [a n1] eqn:Ea.
      destruct (all_statements f64_str the_model l n1) as [b n2] eqn:Eb. injection E as <- _. constructor.
      + intros [E _]. unfold st_predicate in E. vm_compute in E. discriminate E.
      + apply Forall_app. split; [|eapply IH, Eb]. eapply plain_props_statements; [apply plain_shape|exact Ea].
  Qed.
End Plain.

Section RoundTrip.
  Context `{H : Hasher}.
  Variable f64_str : Z -> str.
  (** The only thing that is a model in the graph of a model is the model. *)
  Lemma only_model m name g : model_to_rdf f64_str m name = (g, None) ->
    forall s, is_a_model g s -> s = match name with None => TBlank 0 | Some i => TIri i end.
  Proof.
    intros E s I. unfold model_to_rdf in E.
    set (subject := match name with None => TBlank 0 | Some i => TIri i end).
    assert (Q : exists L n n', all_statements f64_str subject (shapes m) n = (L, n')
      /\ g_statements g = St subject (smithy "smithy_version") (literal (lit "1.0")) :: St subject a_type (TIri (smithy "Model")) :: L).
    { destruct name as [i|]; cbn [g_blank] in E; rewrite walk_put in E; cbn [g_insert g_next g_statements] in E;
        destruct (all_statements f64_str _ (shapes m) _) as [L n'] eqn:EL in E; injection E as <-;
        exists L; do 2 eexists; (split; [exact EL|reflexivity]). }
    destruct Q as (L & n & n' & EL & EG). unfold is_a_model, states in I. rewrite EG in I. destruct I as [I|[I|I]].
    - exfalso. apply (f_equal st_predicate) in I. unfold st_predicate in I. vm_compute in I. discriminate I.
    - apply (f_equal st_subject) in I. symmetry. exact I.
    - apply all_not_model in EL. rewrite Forall_forall in EL. destruct (EL _ I). split; reflexivity.
  Qed.
End RoundTrip.

(** ** Renaming of blank nodes *)
Section Rename.
  Context `{H : Hasher}.
  Variables (g h : graph) (f : nat -> nat).
  Hypothesis inj : forall a b, f a = f b -> a = b.
  Hypothesis same : forall s, In s (g_statements h) <-> In s (map (rename_statement f) (g_statements g)).
  Lemma rename_inj a b : rename_term f a = rename_term f b -> a = b.
  Proof. destruct a, b; cbn; try congruence. intros [= E]. f_equal. apply inj, E. Qed.
  Lemma states_rename s p o : states g s p o <-> states h (rename_term f s) p (rename_term f o).
  Proof.
    unfold states. rewrite same, in_map_iff. split.
    - intros I. exists (St s p o). auto.
    - intros ([s' p' o'] & E & I). unfold rename_statement in E. cbn [st_subject st_predicate st_object] in E. injection E as E1 E2 E3.
      apply rename_inj in E1, E3. subst. exact I.
  Qed.
  Lemma states_back s p o : states h s p o -> exists s' o', s = rename_term f s' /\ o = rename_term f o' /\ states g s' p o'.
  Proof.
    unfold states. rewrite same, in_map_iff. intros ([s' p' o'] & E & I). unfold rename_statement in E. cbn [st_subject st_predicate st_object] in E.
    injection E as <- -> <-. exists s', o'. auto.
  Qed.
  Lemma is_a_model_rename s : is_a_model g s <-> is_a_model h (rename_term f s).
  Proof. apply (states_rename s a_type (TIri (smithy "Model"))). Qed.
  Lemma the_model_rename name s : the_model g name s -> the_model h name (rename_term f s).
  Proof.
    intros [A B]. split; [apply is_a_model_rename, A|]. destruct name as [i|]; [now subst s|].
    intros s' K. destruct (states_back _ _ _ K) as (s0 & o0 & -> & E & I). f_equal. apply B.
    destruct o0; try discriminate E. cbn [rename_term] in E. unfold is_a_model. rewrite E. exact I.
  Qed.
  Lemma the_model_back name s : the_model h name s -> exists s', the_model g name s'.
  Proof.
    intros [A B]. destruct (states_back _ _ _ A) as (s0 & o0 & -> & E & I). 
    destruct o0; try discriminate E. cbn [rename_term] in E. rewrite <- E in I. exists s0. split; [exact I|].
    destruct name as [j|].
    - destruct s0; cbn in B; try discriminate B. exact B.
    - intros s' K. apply rename_inj. apply B. apply is_a_model_rename, K.
  Qed.
  Lemma version_rename s v : written_version g s v <-> written_version h (rename_term f s) v.
  Proof.
    split; intros (d & A & B); exists d.
    - split; [apply (states_rename _ _ (TLit v d)), A|]. intros o' K.
      destruct (states_back _ _ _ K) as (s0 & o0 & E & -> & I). apply rename_inj in E. subst s0.
      rewrite (B _ I). reflexivity.
    - split; [apply (states_rename _ _ (TLit v d)), A|]. intros o' K.
      apply states_rename in K. specialize (B _ K). destruct o'; try discriminate B. exact B.
  Qed.
  Lemma shape_rename s : has_a_shape g s <-> has_a_shape h (rename_term f s).
  Proof.
    split; intros (o & K).
    - exists (rename_term f o). apply states_rename, K.
    - destruct (states_back _ _ _ K) as (s0 & o0 & E & -> & I). apply rename_inj in E. subst s0. exists o0. exact I.
  Qed.
  Lemma reading_rename name r : reading g name r -> reading h name r.
  Proof.
    intros R. destruct R as [N|s M N|s v M W K|s v M W K S|s v M W K S].
    - apply reading_no_model. intros (s & M). apply N. eapply the_model_back, M.
    - eapply reading_no_version; [apply the_model_rename, M|]. intros (v & W). apply N. exists v. apply version_rename, W.
    - eapply reading_bad_version; [apply the_model_rename, M|apply version_rename, W|exact K].
    - eapply reading_shape; [apply the_model_rename, M|apply version_rename, W|exact K|apply shape_rename, S].
    - eapply reading_empty; [apply the_model_rename, M|apply version_rename, W|exact K|].
      intros S'. apply S, shape_rename, S'.
  Qed.
End Rename.
