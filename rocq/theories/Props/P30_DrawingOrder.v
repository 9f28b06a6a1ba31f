(** C64: the drawings and the RDF graph of a model do not depend on the order in which its maps are iterated. *)
From Verif.Model Require Import SemModel GraphML PlantUml Rdf.
From Verif.Spec Require Import ModelSpec ReorderSpec ActionsSpec GraphMLSpec UmlSpec RdfSpec OrderSpec Witness.
From Verif.Proofs Require Import BaseFacts IdentityFacts HashMapFacts ReorderFacts ReorderEquiv OrderFacts MergeOrderFacts GraphMLFacts UmlFacts RdfGraphFacts RdfIso DrawingOrder.
From Verif.Proofs Require RdfFacts.
From Verif.Props Require Import P04_Lines P10_Rdf P17_GraphML P18_PlantUml P28_Order.
From Verif.Spec Require Import RdfSpec OrderSpec.

(** GraphML: the same nodes and edges. Both writers panic, or both write a document; the documents' trees are
    the drawings' (C48), and the drawings have the same parts. *)
Theorem C64_graphml :
  forall (overflow_checks : bool) (m1 m2 : model),
    reorder_model m1 m2 -> Forall drawable (drawing m1) ->
    Permutation (drawing m1) (drawing m2)
    /\ ((graphml_write overflow_checks m1 = Panic /\ graphml_write overflow_checks m2 = Panic)
        \/ exists t1 t2, graphml_write overflow_checks m1 = Ok t1 /\ graphml_write overflow_checks m2 = Ok t2
             /\ document (graphml_xml m1) t1 /\ document (graphml_xml m2) t2).
Proof.
  intros ck m1 m2 R D. pose proof (drawing_order m1 m2 R) as P. split; [exact P|].
  pose proof (Permutation_length (edges_perm _ _ P)) as L.
  assert (D2 : Forall drawable (drawing m2)) by (rewrite Forall_forall in *; intros x I; apply D, (Permutation_in _ (Permutation_sym P) I)).
  assert (C : (ck = false \/ (Z.of_nat (length (edges (drawing m1))) <= 65535)%Z) \/ (ck = true /\ (65535 < Z.of_nat (length (edges (drawing m1))))%Z)).
  { destruct ck; [|auto]. destruct (Z_le_gt_dec (Z.of_nat (length (edges (drawing m1)))) 65535); [auto|right; split; [reflexivity|lia]]. }
  destruct C as [C|[-> C]].
  - right. destruct (C48_document ck m1 D C) as (t1 & W1 & X1). rewrite L in C. destruct (C48_document ck m2 D2 C) as (t2 & W2 & X2). exists t1, t2. auto.
  - left. split; [exact (C48_overflow m1 C)|]. rewrite L in C. exact (C48_overflow m2 C).
Qed.
Print Assumptions C64_graphml.

(** PlantUML: both writers panic, or both write, and the texts read as the same diagram but for the order of
    its items and, within a class, of its lines, whatever the orders in which the namespaces came. *)
Theorem C64_plantuml :
  forall (H : Hasher) (f64_str : Z -> str) (debug_str : str -> str) (expand_smithy_api : bool) (m1 m2 : model) (order1 order2 : list str),
    model_ok m1 -> reorder_model m1 m2 -> tame m1 ->
    (forall s, stored m1 s -> length (documentation (ts_traits s)) <= 1) ->
    (forall i j, In i (shape_names m1) -> In j (shape_names m1) -> ident_eqb (sid_ns i) (sid_ns j) = true ->
       hash_str (sid_ns i) = hash_str (sid_ns j) -> sid_ns i = sid_ns j) ->
    Permutation order1 (namespaces m1) -> Permutation order2 (namespaces m2) ->
    (forall b, one_line (f64_str b)) ->
    (forall s, one_line (debug_str s) /\ exists t, debug_str s = dquote :: t) ->
    (plantuml_write f64_str debug_str expand_smithy_api order1 m1 = Panic
     /\ plantuml_write f64_str debug_str expand_smithy_api order2 m2 = Panic)
    \/ exists t1 t2 d1 d2,
         plantuml_write f64_str debug_str expand_smithy_api order1 m1 = Ok t1
         /\ plantuml_write f64_str debug_str expand_smithy_api order2 m2 = Ok t2
         /\ read_diagram t1 = Some d1 /\ read_diagram t2 = Some d2 /\ same_items d1 d2.
Proof.
  intros H f d e m1 m2 o1 o2 OK R T D NC P1 P2 F G. assert (K : keys_ok m1) by apply OK.
  pose proof (reorder_model_ok m1 m2 OK R) as OK2. assert (K2 : keys_ok m2) by apply OK2.
  destruct (C62_names H m1 m2 K R) as (_ & _ & _ & _ & N). specialize (N NC).
  pose proof (tame_order m1 m2 R T) as T2.
  destruct (C49_outcome H f d e m1 o1 P1) as [A1 B1]. destruct (C49_outcome H f d e m2 o2 P2) as [A2 B2].
  destruct (write_says f d e o1 m1) as [[X W]|[_ W]].
  - right. assert (O1 : operations_known m1).
    { apply known_forall. destruct X as [X|X]; [exact (order_nil m1 o1 P1 X)|exact X]. }
    destruct (A1 O1) as (t1 & W1). destruct (A2 (operations_known_order m1 m2 K R O1)) as (t2 & W2).
    exists t1, t2. do 2 eexists. split; [exact W1|]. split; [exact W2|]. split; [exact (C49_diagram H f d e m1 o1 t1 P1 F G T W1)|].
    split; [exact (C49_diagram H f d e m2 o2 t2 P2 F G T2 W2)|]. apply diagram_order; try assumption.
    rewrite P1, P2. exact N.
  - left. assert (O1 : ~ operations_known m1) by (intros O; destruct (A1 O) as (t & X); rewrite X in W; discriminate W).
    split; [exact (B1 O1)|]. apply B2. intros O2. apply O1. exact (operations_known_order m2 m1 K2 (reorder_model_sym _ _ R) O2).
Qed.
Print Assumptions C64_plantuml.

(** RDF: the same graph, up to the names of blank nodes. *)
Theorem C64_rdf :
  forall (f64_str : Z -> str) (m1 m2 : model) (model_iri : option iri),
    reorder_model m1 m2 ->
    (forall s r, stored m1 s -> ts_body s = KResource r -> length (rs_identifiers r) <= 1) ->
    exists g1 g2,
      model_to_rdf f64_str m1 model_iri = (g1, None) /\ model_to_rdf f64_str m2 model_iri = (g2, None)
      /\ same_graph (g_statements g1) (g_statements g2).
Proof.
  intros f m1 m2 mi R FI. apply model_graphs; [exact R|]. intros s I. apply in_map_iff in I as ([k x] & E & I). cbn in E. subst x.
  unfold few_identifiers. destruct (ts_body s) eqn:Eb; try exact Logic.I. apply (FI s r); [exists k; exact I|exact Eb].
Qed.
Print Assumptions C64_rdf.

(** In other words, the graph of either model describes the shapes of the other. *)
Theorem C64_rdf_says :
  forall (H : Hasher) (f64_str : Z -> str) (m1 m2 : model) (model_iri : option iri),
    model_ok m1 -> model_valid m1 -> reorder_model m1 m2 ->
    (forall i s, model_iri = Some i -> In s (resolved m1) -> i <> shape_to_iri (ts_id s)) ->
    (forall s r, stored m1 s -> ts_body s = KResource r -> length (rs_identifiers r) <= 1) ->
    exists g subject,
      model_to_rdf f64_str m2 model_iri = (g, None)
      /\ match model_iri with Some i => subject = TIri i | None => exists n, subject = TBlank n end
      /\ says (g_statements g) subject
           ((smithy "smithy_version", text "1.0") :: (a_type, class "Model")
            :: map (fun s => (smithy "shape", named (ts_id s))) (resolved m1))
      /\ (forall s, In s (resolved m1) ->
            says (g_statements g) (TIri (shape_to_iri (ts_id s))) (shape_description f64_str s))
      /\ (forall st, In st (g_statements g) ->
            st_subject st = subject
            \/ (exists s, In s (resolved m1) /\ st_subject st = TIri (shape_to_iri (ts_id s)))
            \/ exists n, st_subject st = TBlank n).
Proof.
  intros H f m1 m2 mi OK V R NI FI. destruct (resolved_order m1 m2 R) as [RA RB].
  assert (V2 : model_valid m2). { intros t I. destruct (RB t I) as (s & Is & Rs). exact (shape_valid_order s t Rs (V s Is)). }
  assert (NI2 : forall i s, mi = Some i -> In s (resolved m2) -> i <> shape_to_iri (ts_id s)).
  { intros i t E I. destruct (RB t I) as (s & Is & Es & _). rewrite <- Es. exact (NI i s E Is). }
  destruct (C35_graph_describes_model H f m2 mi (reorder_model_ok m1 m2 OK R) V2 NI2) as (g & sub & G & S & A & B & C).
  exists g, sub. split; [exact G|]. split; [exact S|]. split; [|split].
  - eapply says_same; [|exact A]. do 2 (apply same_desc_cons; [apply same_obj_refl|]).
    constructor; intros p o I; apply in_map_iff in I as (s & E & I); injection E as <- <-.
    + destruct (RB s I) as (t & It & Et & _). exists (named (ts_id t)). rewrite Et. split; [|apply same_obj_refl]. rewrite <- Et. apply in_map_iff. exists t. auto.
    + destruct (RA s I) as (t & It & Et & _). exists (named (ts_id t)). rewrite Et. split; [|apply same_obj_refl]. apply in_map_iff. exists t. auto.
  - intros s I. destruct (RA s I) as (t & It & Rt). assert (Et : ts_id s = ts_id t) by apply Rt. rewrite Et.
    eapply says_same; [|exact (B t It)]. apply same_obj_sym. apply shape_description_order; [|exact Rt].
    apply filter_In in I as [I _]. apply in_map_iff in I as ([k x] & E & I). cbn in E. subst x.
    unfold few_identifiers. destruct (ts_body s) eqn:Eb; try exact Logic.I. apply (FI s r); [exists k; exact I|exact Eb].
  - intros st I. destruct (C st I) as [X|[(t & It & X)|X]]; auto. right. left. destruct (RB t It) as (s & Is & Es & _). exists s. split; [exact Is|]. rewrite Es. exact X.
Qed.
Print Assumptions C64_rdf_says.

(** With two identifiers the graph does depend on it: they are numbered in the order they come. *)
Definition two_identifiers (l : list (str * shape_id)) : model :=
  Model V10 [] [(ex_id "R", Shape (ex_id "R") [] (KResource (Resource l None None None None None None [] [] [])))].
Definition forwards : model := Eval cbv delta [two_identifiers] beta in two_identifiers [(lit "a", api_id "String"); (lit "b", api_id "Integer")].
Definition backwards := two_identifiers [(lit "b", api_id "Integer"); (lit "a", api_id "String")].
Theorem C64_rdf_identifiers_refuted :
  @model_ok zero_hasher forwards /\ model_valid forwards /\ reorder_model forwards backwards
  /\ ~ (exists g, model_to_rdf (fun _ => []) backwards None = (g, None)
          /\ forall s, In s (resolved forwards) ->
               says (g_statements g) (TIri (shape_to_iri (ts_id s))) (shape_description (fun _ => []) s)).
Proof.
  assert (Vr : valid_id (ex_id "R")) by (refine (proj1 (sid_from_str_sound "example.motd#R" _ _)); vm_compute; reflexivity).
  assert (Va : valid_id (api_id "String")) by (refine (proj1 (sid_from_str_sound "smithy.api#String" _ _)); vm_compute; reflexivity).
  assert (Vb : valid_id (api_id "Integer")) by (refine (proj1 (sid_from_str_sound "smithy.api#Integer" _ _)); vm_compute; reflexivity).
  split; [solve_model_ok forwards|]. split; [|split].
  - intros s [<-|[]]. split; [exact Vr|]. split; [intros ? []|]. cbn. split; [intros e [<-|[<-|[]]]; assumption|].
    unfold id_valid, ids_valid. repeat match goal with |- _ /\ _ => split end; intros ? X; solve [discriminate X|destruct X].
  - split; [reflexivity|]. split; [exists []; split; constructor|].
    eexists. split; [reflexivity|]. constructor; [|constructor]. split; [reflexivity|]. split; [reflexivity|]. split; [exists []; split; constructor|].
    apply rb_resource. split; [apply perm_swap|]. repeat split.
  - intros (g & G & D). specialize (D _ (or_introl eq_refl)).
    assert (E : g = fst (model_to_rdf (fun _ => []) backwards None)) by (rewrite G; reflexivity). vm_compute in E. subst g. clear G.
    destruct D as [D _]. destruct (D (smithy "identifiers") _ (or_intror (or_introl eq_refl))) as (t & I & S). clear D.
    vm_compute in I. repeat destruct I as [I|I]; try discriminate I; try contradiction. injection I as <-.
    inversion S as [|n ps D _]; subst. destruct (D (rdf "_1") _ (or_intror (or_introl eq_refl))) as (t & I & S'). clear D S.
    vm_compute in I. repeat destruct I as [I|I]; try discriminate I; try contradiction. injection I as <-.
    inversion S' as [|n ps D _]; subst. destruct (D (smithy "key") _ (or_introl eq_refl)) as (t & I & S). clear D S'.
    vm_compute in I. repeat destruct I as [I|I]; try discriminate I; try contradiction. injection I as <-.
    inversion S.
Qed.
Print Assumptions C64_rdf_identifiers_refuted.
Theorem C64_rdf_refuted :
  ~ (forall (f64_str : Z -> str) (m1 m2 : model) (model_iri : option iri),
       reorder_model m1 m2 ->
       exists g1 g2,
         model_to_rdf f64_str m1 model_iri = (g1, None) /\ model_to_rdf f64_str m2 model_iri = (g2, None)
         /\ same_graph (g_statements g1) (g_statements g2)).
Proof.
  intros A. destruct C64_rdf_identifiers_refuted as (OK & V & R & N).
  destruct (A (fun _ => []) forwards backwards None R) as (g1 & g2 & E1 & E2 & r & inj & same). apply N. exists g2. split; [exact E2|].
  destruct (C35_graph_describes_model zero_hasher (fun _ => []) forwards None OK V) as (g & sub & E & _ & _ & B & _); [intros i s X; discriminate X|].
  rewrite E1 in E. injection E as <-. intros s I. exact (RdfFacts.says_rename r _ _ inj same _ _ (B s I)).
Qed.
Print Assumptions C64_rdf_refuted.

(** The message-of-the-day model, and the same with its maps iterated backwards. *)
Example C64_ex :
  reorder_model motd rev_motd /\ drawing motd <> drawing rev_motd
  /\ Forall drawable (drawing motd) /\ tame motd /\ @model_ok byte_hasher motd /\ model_valid motd
  /\ (forall s, stored motd s -> length (documentation (ts_traits s)) <= 1)
  /\ (forall i j, In i (shape_names motd) -> In j (shape_names motd) -> ident_eqb (sid_ns i) (sid_ns j) = true ->
        @hash_str byte_hasher (sid_ns i) = @hash_str byte_hasher (sid_ns j) -> sid_ns i = sid_ns j)
  /\ Permutation [ex_ns] (@namespaces byte_hasher motd) /\ Permutation [ex_ns] (@namespaces byte_hasher rev_motd)
  /\ (forall s r, stored motd s -> ts_body s = KResource r -> length (rs_identifiers r) <= 1).
Proof.
  assert (Q : forall P : shape -> Prop, (forall s, In s (shapes motd) -> P s) -> forall s, stored motd s -> P s).
  { intros P A s (k & I). apply A. apply in_map_iff. exists (k, s). auto. }
  split; [apply C23_ex|]. split; [vm_compute; discriminate|]. split; [apply C48_ex|]. split; [exact C49_ex_tame|].
  split; [solve_model_ok motd|]. split; [apply C35_ex|]. split; [|split; [|split; [|split]]].
  - apply Q. apply Forall_forall. vm_compute. repeat (constructor; [lia|]). constructor.
  - intros i j I J _ _. assert (F : Forall (fun i => sid_ns i = ex_ns) (shape_names motd)) by (vm_compute; repeat constructor).
    rewrite Forall_forall in F. rewrite (F _ I), (F _ J). reflexivity.
  - vm_compute. repeat constructor.
  - vm_compute. repeat constructor.
  - intros s r S. revert s S r. apply (Q (fun s => forall r, ts_body s = KResource r -> length (rs_identifiers r) <= 1)).
    apply (Forall_forall (fun s => forall r, ts_body s = KResource r -> length (rs_identifiers r) <= 1)). unfold shapes, hm_values. cbn [m_shapes motd map snd].
    repeat (constructor; [intros r E; vm_compute in E; try discriminate E; injection E as <-; vm_compute; lia|]). constructor.
Qed.
