(** C48: the GraphML writer (atelier-describe/src/graphml/writer.rs). *)
From Verif.Model Require Import GraphML.
From Verif.Spec Require Import GraphMLSpec IdentitySpec ModelSpec Witness.
From Verif.Proofs Require Import BaseFacts IdentityFacts HashMapFacts LinesFacts GraphMLFacts.

(** The text written is a well-formed XML document, and the tree it spells is [graphml_xml m]: the
    key declarations, then for every shape that is not unresolved its node, one edge per trait applied
    to it and one edge per target, in the order of the model. *)
Theorem C48_document :
  forall (overflow_checks : bool) (m : model),
    Forall drawable (drawing m) ->
    overflow_checks = false \/ (Z.of_nat (length (edges (drawing m))) <= 65535)%Z ->
    exists text, graphml_write overflow_checks m = Ok text /\ document (graphml_xml m) text.
Proof.
  intros ck m D C. exists (graphml_text m). split; [apply graphml_write_ok; exact C|apply graphml_document; exact D].
Qed.
Print Assumptions C48_document.

(** With overflow checks (a debug build) the writer panics as soon as there are 65536 edges. *)
Theorem C48_overflow :
  forall m : model,
    (65535 < Z.of_nat (length (edges (drawing m))))%Z -> graphml_write true m = Panic.
Proof. exact graphml_write_panic. Qed.
Print Assumptions C48_overflow.

(** Edge ids are e0, e1, ... in order, and distinct, up to 65536 edges; beyond that (only possible
    without overflow checks) they are not distinct. *)
Theorem C48_edge_ids :
  forall m : model,
    (Z.of_nat (length (edges (drawing m))) <= 65536)%Z ->
    attr_values "edge" "id" (graphml_xml m)
      = map (fun n => lit "e" ++ nat_to_str (Z.of_nat n)) (seq 0 (length (edges (drawing m))))
    /\ NoDup (attr_values "edge" "id" (graphml_xml m)).
Proof.
  intros m L.
  assert (attr_values "edge" "id" (graphml_xml m) = map edge_name (seq 0 (E (drawing m)))) as X.
  { rewrite <- edge_ids_xml. cbn. rewrite ?app_nil_r. reflexivity. }
  rewrite X. split.
  - apply map_ext_in. intros n N. apply in_seq in N. unfold E in N. unfold edge_name. rewrite Z.mod_small by lia. reflexivity.
  - assert (forall k, In k (seq 0 (E (drawing m))) -> (Z.of_nat k < 65536)%Z) as B.
    { intros k K. apply in_seq in K. unfold E in K. lia. }
    pose proof (seq_NoDup (E (drawing m)) 0) as D. revert B D. generalize (seq 0 (E (drawing m))). intros l B D.
    induction D as [|a l A D IH]; [constructor|]. cbn [map]. constructor.
    + intros I. apply in_map_iff in I. destruct I as (b & H & I). apply edge_name_inj in H; [subst; auto| |]; apply B; cbn; auto.
    + apply IH. intros k K. apply B. right. exact K.
Qed.
Print Assumptions C48_edge_ids.
Theorem C48_edge_ids_distinct_refuted :
  forall m : model,
    (65536 < Z.of_nat (length (edges (drawing m))))%Z -> ~ NoDup (attr_values "edge" "id" (graphml_xml m)).
Proof.
  intros m L.
  assert (attr_values "edge" "id" (graphml_xml m) = map edge_name (seq 0 (E (drawing m)))) as ->.
  { rewrite <- edge_ids_xml. cbn. rewrite ?app_nil_r. reflexivity. }
  unfold E. assert (exists big, 65536%Z = Z.of_nat big) as [big BZ] by (apply Z_of_nat_complete; lia).
  replace (length (edges (drawing m))) with (1 + (big - 1) + (1 + (length (edges (drawing m)) - 1 - big))) by lia.
  rewrite seq_app, map_app. change (seq 0 (1 + (big - 1))) with (0 :: seq 1 (big - 1)). cbn [map app].
  intros N. inversion N as [|? ? A _]. apply A. apply in_app_iff. right. cbn [plus seq map]. left.
  unfold edge_name. do 2 f_equal. rewrite Z.mod_0_l by lia.
  replace (Z.of_nat (S (big - 1))) with 65536%Z by lia. reflexivity.
Qed.
Print Assumptions C48_edge_ids_distinct_refuted.

(** Exactly the shapes that are not unresolved have a node, in order; in a model whose keys are the
    ids of its shapes the node ids are distinct; the source of every edge is a node. *)
Lemma node_ids m :
  attr_values "node" "id" (graphml_xml m)
  = map (fun e => id_text (ts_id (snd e))) (filter (fun e => negb (is_unresolved (ts_body (snd e)))) (m_shapes m)).
Proof.
  assert (attr_values "node" "id" (graphml_xml m) = flat_map (attr_values "node" "id") (drawn_xml 0 (drawing m))) as ->.
  { cbn. rewrite ?app_nil_r. reflexivity. }
  assert (forall l n, flat_map (attr_values "node" "id") (drawn_xml n l)
          = flat_map (fun d => match d with DNode id _ _ => [id_text id] | _ => [] end) l) as ->.
  { induction l as [|[id ty v|a b k x] l IH]; intros n; [reflexivity| |]; cbn [drawn_xml flat_map]; rewrite IH; [destruct v|]; reflexivity. }
  unfold drawing. rewrite (flat_map_concat_map _ (m_shapes m)).
  induction (m_shapes m) as [|e l IH]; [reflexivity|]. cbn [map concat filter]. rewrite flat_map_app, IH.
  assert (forall d, flat_map (fun d => match d with DNode id _ _ => [id_text id] | _ => [] end)
     (map (fun t => DEdge (ts_id (snd e)) (fst t) (lit "trait") (lit "true")) (ts_traits (snd e))
      ++ map (fun t => DEdge (ts_id (snd e)) (snd t) (lit "member") (fst t)) d) = []) as N.
  { intros d. rewrite flat_map_app. induction (ts_traits (snd e)) as [|t ts IHt]; [|exact IHt].
    induction d as [|t ts IHt]; [reflexivity|exact IHt]. }
  unfold shape_drawing. destruct (ts_body (snd e)) eqn:B; cbn [is_unresolved negb]; cbn [flat_map app map]; rewrite ?N; reflexivity.
Qed.
Theorem C48_one_node_per_shape :
  forall (H : Hasher) (m : model),
    attr_values "node" "id" (graphml_xml m)
      = map (fun e => id_text (ts_id (snd e))) (filter (fun e => negb (is_unresolved (ts_body (snd e)))) (m_shapes m))
    /\ (keys_ok m -> Forall (fun e => valid_id (fst e)) (m_shapes m) -> NoDup (attr_values "node" "id" (graphml_xml m)))
    /\ incl (attr_values "edge" "source" (graphml_xml m)) (attr_values "node" "id" (graphml_xml m)).
Proof.
  intros H m. rewrite node_ids. split; [reflexivity|]. split.
  - intros (K & D & _) V. clear -K D V. induction (m_shapes m) as [|[k s] l IH]; [constructor|].
    cbn [filter snd]. inversion V as [|? ? V1 V2]; subst. cbn [fst] in V1.
    assert (NoDup (map (fun e => id_text (ts_id (snd e))) (filter (fun e => negb (is_unresolved (ts_body (snd e)))) l))) as N.
    { apply IH; [|apply D|exact V2]. intros k' s' I. apply K. right. exact I. }
    destruct (negb (is_unresolved (ts_body s))); [|exact N]. cbn [map snd]. constructor; [|exact N].
    intros I. apply in_map_iff in I. destruct I as ([k' s'] & T & I). cbn [snd] in T.
    apply filter_In in I. destruct I as [I _].
    destruct (K k s (or_introl eq_refl)) as [-> _]. destruct (K k' s' (or_intror I)) as [-> _].
    rewrite Forall_forall in V2. specialize (V2 _ I). cbn [fst] in V2. apply id_text_inj in T; auto.
    cbn [distinct] in D. destruct D as [D _]. specialize (D _ _ I). rewrite T, (eqv_refl _ sid_key_equiv) in D. discriminate.
  - assert (attr_values "edge" "source" (graphml_xml m) = flat_map (attr_values "edge" "source") (drawn_xml 0 (drawing m))) as ->.
    { cbn. rewrite ?app_nil_r. reflexivity. }
    assert (forall l n, flat_map (attr_values "edge" "source") (drawn_xml n l)
            = flat_map (fun d => match d with DEdge a _ _ _ => [id_text a] | _ => [] end) l) as ->.
    { induction l as [|[id ty v|a b k x] l IH]; intros n; [reflexivity| |]; cbn [drawn_xml flat_map]; rewrite IH; [destruct v|]; reflexivity. }
    intros x X. apply in_flat_map in X. destruct X as (d & D & X). unfold drawing in D. apply in_flat_map in D.
    destruct D as (e & I & D). apply in_map_iff. exists e.
    unfold shape_drawing in D. destruct (is_unresolved (ts_body (snd e))) eqn:U.
    { destruct (ts_body (snd e)); try discriminate. destruct D. }
    split; [|apply filter_In; rewrite U; auto].
    assert (In d (DNode (ts_id (snd e)) (type_name (ts_body (snd e))) (version_of (ts_body (snd e)))
      :: map (fun t => DEdge (ts_id (snd e)) (fst t) (lit "trait") (lit "true")) (ts_traits (snd e))
      ++ map (fun t => DEdge (ts_id (snd e)) (snd t) (lit "member") (fst t)) (targets (ts_body (snd e))))) as D'.
    { destruct (ts_body (snd e)); try exact D. discriminate. }
    destruct D' as [<-|D']; [destruct X|]. apply in_app_iff in D'.
    destruct D' as [D'|D']; apply in_map_iff in D'; destruct D' as (t & <- & _); destruct X as [X|[]]; exact X.
Qed.
Print Assumptions C48_one_node_per_shape.

(** The target of an edge is a node only if the model has a (resolved) shape of that id: when every
    trait and target of a model does, all edges join nodes. *)
Theorem C48_targets_are_nodes :
  forall m : model,
    (forall e t, In e (m_shapes m) -> ts_body (snd e) <> KUnresolved ->
       In t (map fst (ts_traits (snd e)) ++ map snd (targets (ts_body (snd e)))) ->
       exists e', In e' (m_shapes m) /\ ts_id (snd e') = t /\ ts_body (snd e') <> KUnresolved) ->
    incl (attr_values "edge" "target" (graphml_xml m)) (attr_values "node" "id" (graphml_xml m)).
Proof.
  intros m C. rewrite node_ids.
  assert (attr_values "edge" "target" (graphml_xml m) = flat_map (attr_values "edge" "target") (drawn_xml 0 (drawing m))) as ->.
  { cbn. rewrite ?app_nil_r. reflexivity. }
  assert (forall l n, flat_map (attr_values "edge" "target") (drawn_xml n l)
          = flat_map (fun d => match d with DEdge _ b _ _ => [id_text b] | _ => [] end) l) as ->.
  { induction l as [|[id ty v|a b k x] l IH]; intros n; [reflexivity| |]; cbn [drawn_xml flat_map]; rewrite IH; [destruct v|]; reflexivity. }
  intros x X. apply in_flat_map in X. destruct X as (d & D & X). unfold drawing in D. apply in_flat_map in D.
  destruct D as (e & I & D). unfold shape_drawing in D.
  assert (ts_body (snd e) <> KUnresolved) as U by (intros U; rewrite U in D; destruct D).
  assert (In d (DNode (ts_id (snd e)) (type_name (ts_body (snd e))) (version_of (ts_body (snd e)))
      :: map (fun t => DEdge (ts_id (snd e)) (fst t) (lit "trait") (lit "true")) (ts_traits (snd e))
      ++ map (fun t => DEdge (ts_id (snd e)) (snd t) (lit "member") (fst t)) (targets (ts_body (snd e))))) as D'.
  { destruct (ts_body (snd e)); try exact D. contradiction. }
  assert (exists t, In t (map fst (ts_traits (snd e)) ++ map snd (targets (ts_body (snd e)))) /\ x = id_text t) as (t & T & ->).
  { destruct D' as [<-|D']; [destruct X|]. apply in_app_iff in D'.
    destruct D' as [D'|D']; apply in_map_iff in D'; destruct D' as (t & <- & T); destruct X as [<-|[]];
      eexists; (split; [apply in_app_iff|reflexivity]); [left|right]; apply in_map_iff; eauto. }
  destruct (C e t I U T) as (e' & I' & <- & U'). apply in_map_iff. exists e'. split; [reflexivity|].
  apply filter_In. split; [exact I'|]. destruct (ts_body (snd e')); try reflexivity. contradiction.
Qed.
Print Assumptions C48_targets_are_nodes.

(** The message-of-the-day model meets the hypotheses of all of these. *)
Ltac solve_drawable :=
  repeat match goal with
    | |- Forall _ [] => apply Forall_nil
    | |- Forall _ (_ :: _) => apply Forall_cons
    | |- drawable _ => cbn [drawable]
    | |- _ /\ _ => split
    | |- valid_id _ => apply valid_idb_spec; vm_compute; reflexivity
    | |- is_identifier _ => apply ident_is_valid_spec; vm_compute; reflexivity
    | |- char_data _ => apply plain_data; vm_compute; reflexivity
    | |- True => exact I
    end.
Example C48_ex :
  Forall drawable (drawing motd) /\ length (edges (drawing motd)) = 14 /\ length (nodes (drawing motd)) = 7
  /\ keys_ok (H := byte_hasher) motd /\ Forall (fun e => valid_id (fst e)) (m_shapes motd).
Proof.
  split; [|split; [|split; [|split]]].
  - let d := eval vm_compute in (drawing motd) in change (drawing motd) with d. solve_drawable.
  - reflexivity.
  - reflexivity.
  - assert (model_ok (H := byte_hasher) motd) as [K _] by solve_model_ok motd. exact K.
  - let d := eval vm_compute in (m_shapes motd) in change (m_shapes motd) with d.
    repeat (apply Forall_cons || apply Forall_nil); cbn [fst]; solve_drawable.
Qed.

(** GraphML asks for edges between nodes of the graph: the same model breaks it, [smithy.api#String] is
    unresolved and [smithy.api#pattern] is not in the model. *)
Theorem C48_targets_are_nodes_refuted :
  ~ (forall m : model, incl (attr_values "edge" "target" (graphml_xml m)) (attr_values "node" "id" (graphml_xml m))).
Proof.
  intros C. specialize (C motd (lit "smithy.api#String")).
  assert (In (lit "smithy.api#String") (attr_values "node" "id" (graphml_xml motd))) as I.
  { apply C. vm_compute. tauto. }
  vm_compute in I. intuition discriminate.
Qed.
Print Assumptions C48_targets_are_nodes_refuted.

(** The key of a data item is declared for every item of a node or an edge; the one item of the graph
    itself uses a key that is not declared, in every document. *)
Theorem C48_keys_declared :
  forall m : model,
    attr_values "key" "id" (graphml_xml m) = [lit "smithy-version"; lit "type"; lit "version"; lit "trait"; lit "member"]
    /\ exists items,
        attr_values "data" "key" (graphml_xml m) = lit "smithy.version" :: items
        /\ incl items (attr_values "key" "id" (graphml_xml m)).
Proof.
  intros m.
  assert (forall l n, Forall (fun d => match d with DEdge _ _ k _ => k = lit "trait" \/ k = lit "member" | _ => True end) l ->
     flat_map (attr_values "key" "id") (drawn_xml n l) = [] /\
     incl (flat_map (attr_values "data" "key") (drawn_xml n l)) [lit "smithy-version"; lit "type"; lit "version"; lit "trait"; lit "member"]) as A.
  { induction l as [|d l IH]; intros n F; [split; [reflexivity|intros x []]|]. inversion F as [|? ? F1 F2]; subst.
    destruct d as [id ty v|a b k x]; cbn [drawn_xml flat_map].
    - destruct (IH n F2) as [-> I]. split; [destruct v; reflexivity|]. apply incl_app; [|exact I].
      destruct v; intros y Y; vm_compute in Y |- *; tauto.
    - destruct (IH (S n) F2) as [-> I]. split; [reflexivity|]. apply incl_app; [|exact I].
      intros y Y. destruct F1 as [-> | ->]; vm_compute in Y |- *; tauto. }
  assert (Forall (fun d => match d with DEdge _ _ k _ => k = lit "trait" \/ k = lit "member" | _ => True end) (drawing m)) as F.
  { unfold drawing. apply Forall_flat_map. apply Forall_forall. intros e _. unfold shape_drawing.
    destruct (ts_body (snd e)); try constructor; try exact I;
      apply Forall_app; split; apply Forall_forall; intros x X; apply in_map_iff in X; destruct X as (y & <- & _); auto. }
  destruct (A _ 0 F) as [K D].
  assert (attr_values "key" "id" (graphml_xml m)
     = [lit "smithy-version"; lit "type"; lit "version"; lit "trait"; lit "member"] ++ flat_map (attr_values "key" "id") (drawn_xml 0 (drawing m))) as X.
  { cbn. rewrite ?app_nil_r. reflexivity. }
  rewrite K, app_nil_r in X. rewrite X. split; [reflexivity|].
  exists (flat_map (attr_values "data" "key") (drawn_xml 0 (drawing m))). split; [|exact D]. cbn. rewrite ?app_nil_r. reflexivity.
Qed.
Print Assumptions C48_keys_declared.

(** Service versions are not escaped: whenever one has more [<] than [>], the text is no XML document
    at all. *)
Definition one_service (version : str) : model :=
  Model V10 [] [(ex_id "S", Shape (ex_id "S") [] (KService (Service version [] [] [])))].
Theorem C48_escaping_refuted :
  forall (overflow_checks : bool) (version : str),
    count_ch ">" version < count_ch "<" version ->
    exists text, graphml_write overflow_checks (one_service version) = Ok text /\ forall x, ~ document x text.
Proof.
  intros ck v L. exists (graphml_text (one_service v)). split.
  - apply graphml_write_ok. right. cbn. lia.
  - intros x X. apply document_balanced in X.
    assert (forall c, count_ch c (graphml_text (one_service v)) = count_ch c (graphml_text (one_service [])) + count_ch c v) as S.
    { intros c. unfold graphml_text, one_service, drawing. cbn [m_shapes flat_map snd m_version].
      unfold shape_drawing. cbn [ts_body ts_id ts_traits map targets sv_operations sv_resources named app version_of sv_version drawn_text].
      change (graphml_head {| m_version := V10; m_metadata := []; m_shapes := [(ex_id "S", Shape (ex_id "S") [] (KService (Service v [] [] [])))] |})
        with (graphml_head (one_service [])).
      change (graphml_head {| m_version := V10; m_metadata := []; m_shapes := [(ex_id "S", Shape (ex_id "S") [] (KService (Service [] [] [] [])))] |})
        with (graphml_head (one_service [])).
      unfold node_text. rewrite !count_app. cbn [type_name]. change (count_ch c []) with 0. lia. }
    rewrite !S in X.
    assert (count_ch "<" (graphml_text (one_service [])) = count_ch ">" (graphml_text (one_service []))) as B by (vm_compute; reflexivity).
    lia.
Qed.
Print Assumptions C48_escaping_refuted.
Example C48_escaping_ex : count_ch ">" (lit "2.0<beta") < count_ch "<" (lit "2.0<beta").
Proof. vm_compute. repeat constructor. Qed.

(** Models with any number of edges exist. *)
Definition many_errors (n : nat) : model :=
  Model V10 [] [(ex_id "Op", Shape (ex_id "Op") [] (KOperation (Operation None None (repeat (ex_id "Oops") n))))].
Example C48_many_ex : forall n, length (edges (drawing (many_errors n))) = n /\ Forall drawable (drawing (many_errors n)).
Proof.
  intros n. unfold drawing, many_errors. cbn [m_shapes flat_map snd]. unfold shape_drawing. cbn [ts_body ts_traits ts_id targets].
  cbn [op_input op_output op_errors maybe named map app]. rewrite app_nil_r. split.
  - cbn [edges filter]. unfold named. rewrite map_map. induction n as [|n IH]; [reflexivity|]. cbn [repeat map filter length]. f_equal. exact IH.
  - constructor; [cbn [version_of]; solve_drawable|]. unfold named. rewrite map_map. apply Forall_forall. intros x X. apply in_map_iff in X.
    destruct X as (y & <- & Y). apply repeat_spec in Y. subst y. cbn [fst snd]. solve_drawable.
Qed.
