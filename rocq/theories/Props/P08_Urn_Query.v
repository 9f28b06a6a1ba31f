(** C34: shape URNs (atelier-rdf/src/urn.rs); C36: queries (atelier-query/src/evaluate.rs). *)
From Coq Require Import Sorting.Permutation.
From Verif.Model Require Import Urn Query.
From Verif.Spec Require Import IdentitySpec UrnSpec QuerySpec ModelSpec Witness.
From Verif.Proofs Require Import BaseFacts IdentityFacts UrnFacts HashMapFacts ModelFacts.

(* ---------------------------------------------------------------- C34 *)
Theorem C34_urn_is_documented :
  forall id : shape_id, valid_id id ->
    shape_to_iri id = iri_from_str (urn_text id)
    /\ iri_scheme (shape_to_iri id) = Some (lit "urn")
    /\ lit "urn:" ++ iri_path (shape_to_iri id) = urn_text id
    /\ iri_authority (shape_to_iri id) = None /\ iri_query (shape_to_iri id) = None
    /\ iri_fragment (shape_to_iri id) = None.
Proof.
  intros id V. rewrite (shape_to_iri_eq id V). rewrite urn_text_tail.
  split; [symmetry; exact (iri_of_urn _ (tail_chars _ V))|]. repeat split.
Qed.
Print Assumptions C34_urn_is_documented.

Theorem C34_round_trip :
  forall id : shape_id, valid_id id ->
    iri_to_shape (shape_to_iri id) = Ok id /\ is_shape_iri (shape_to_iri id) = true.
Proof.
  intros id V. assert (E : iri_to_shape (shape_to_iri id) = Ok id).
  { apply iri_to_shape_iff. rewrite (shape_to_iri_eq id V). auto. }
  split; [exact E|]. unfold is_shape_iri. rewrite E. reflexivity.
Qed.
Print Assumptions C34_round_trip.

Theorem C34_injective :
  forall a b : shape_id, valid_id a -> valid_id b -> shape_to_iri a = shape_to_iri b -> a = b.
Proof.
  intros a b Va Vb E. apply (f_equal iri_to_shape) in E.
  rewrite (proj1 (C34_round_trip a Va)), (proj1 (C34_round_trip b Vb)) in E. congruence.
Qed.
Print Assumptions C34_injective.

(** Exactly which IRIs are accepted, and as which shape: authority, query and fragment are ignored. *)
Theorem C34_accepted :
  forall (i : iri) (id : shape_id),
    (iri_to_shape i = Ok id
     <-> valid_id id /\ iri_scheme i = Some (lit "urn") /\ lit "urn:" ++ iri_path i = urn_text id)
    /\ (is_shape_iri i = true <-> exists id, iri_to_shape i = Ok id)
    /\ (iri_to_shape i = Ok id -> iri_authority i = None -> iri_query i = None -> iri_fragment i = None ->
        i = shape_to_iri id)
    /\ iri_to_shape i <> Panic.
Proof.
  intros i id. split; [|split; [|split]].
  - rewrite iri_to_shape_iff, urn_text_tail.
    assert (Q : iri_path i = urn_nid ++ urn_tail id <-> lit "urn:" ++ iri_path i = lit "urn:smithy:" ++ urn_tail id).
    { change (lit "urn:smithy:" ++ urn_tail id) with (lit "urn:" ++ (urn_nid ++ urn_tail id)).
      split; [intros ->; reflexivity|apply app_inv_head]. }
    rewrite Q. reflexivity.
  - unfold is_shape_iri. destruct (iri_to_shape i) as [x| |]; cbn; split; try discriminate; eauto.
    all: intros (y & E); discriminate.
  - intros E A Q F. apply iri_to_shape_iff in E as (V & S & P). rewrite (shape_to_iri_eq id V).
    destruct i as [s a p q f]; cbn in *; subst. reflexivity.
  - unfold iri_to_shape. repeat match goal with |- context [match ?x with _ => _ end] => destruct x end; discriminate.
Qed.
Print Assumptions C34_accepted.

(** Not every accepted IRI is the URN of a shape: a query or a fragment is silently dropped. *)
Theorem C34_accepted_is_urn_refuted :
  ~ (forall (i : iri) (id : shape_id), iri_to_shape i = Ok id -> i = shape_to_iri id)
  /\ exists id, valid_id id
       /\ iri_to_shape (iri_from_str "urn:smithy:example.namespace:shape/member?x=1#other") = Ok id
       /\ shape_to_iri id <> iri_from_str "urn:smithy:example.namespace:shape/member?x=1#other".
Proof.
  split.
  - intros C. specialize (C (iri_from_str "urn:smithy:a:b#c") (SID "a" "b" None)).
    assert (E : iri_to_shape (iri_from_str "urn:smithy:a:b#c") = Ok (SID "a" "b" None)) by (vm_compute; reflexivity).
    apply C in E. vm_compute in E. discriminate.
  - exists (SID "example.namespace" "shape" (Some (lit "member"))).
    split; [refine (proj1 (sid_from_str_sound "example.namespace#shape$member" _ _)); vm_compute; reflexivity|].
    split; [vm_compute; reflexivity|vm_compute; discriminate].
Qed.
Print Assumptions C34_accepted_is_urn_refuted.

Example C34_ex :
  valid_id (SID "example.namespace" "shape" (Some (lit "member")))
  /\ urn_text (SID "example.namespace" "shape" (Some (lit "member"))) = lit "urn:smithy:example.namespace:shape/member"
  /\ Forall (fun s : string => is_shape_iri (iri_from_str s) = false)
       ["urn:Smithy:example.namespace:shape/member"; "smithy:example.namespace:shape/member";
        "urn:example.namespace:shape/member"; "urn:smithy:shape/member"; "urn:smithy::shape/member";
        "urn:smithy:example.namespace:shape/"; "urn:smithy:example.namespace:shape$member";
        "urn:smithy:example.namespace#shape/member"; "urn:smithy:example.namespace:shape/member/other"]%string.
Proof.
  split; [refine (proj1 (sid_from_str_sound "example.namespace#shape$member" _ _)); vm_compute; reflexivity|].
  split; [reflexivity|]. repeat (apply Forall_cons; [vm_compute; reflexivity|]). apply Forall_nil.
Qed.

(* ---------------------------------------------------------------- C36 *)
Lemma shape_type_eq_dec (a b : shape_type) : {a = b} + {a <> b}.
Proof. decide equality. Defined.
Definition own_typeb (t : shape_type) (k : shape_kind) : bool :=
  match own_type k with Some u => if shape_type_eq_dec t u then true else false | None => false end.
Definition selectsb (t : shape_type) (k : shape_kind) : bool :=
  own_typeb t k
  || match t, k with
     | TyAny, KUnresolved => false
     | TyAny, _ => true
     | TyNumber, KSimple SByte | TyNumber, KSimple SLong => false
     | TyNumber, KSimple s => numeric s
     | TySimpleType, KSimple _ => true
     | TyCollection, KList _ | TyCollection, KSet _ | TyCollection, KMap _ _ => true
     | _, _ => false
     end.
Lemma own_typeb_spec t k : own_typeb t k = true <-> own_type k = Some t.
Proof.
  unfold own_typeb. destruct (own_type k) as [u|]; [|split; discriminate].
  destruct (shape_type_eq_dec t u); split; congruence.
Qed.
Lemma own_type_not_number k : own_type k <> Some TyNumber.
Proof. destruct k as [[]| | | | | | | | |]; discriminate. Qed.
Lemma selectsb_spec t k : selectsb t k = true <-> selects t k.
Proof.
  unfold selectsb, selects. rewrite Bool.orb_true_iff, own_typeb_spec. split.
  - intros [O|M].
    + left. split; [apply doc_own, O|]. intros N. inversion N; subst; exact (own_type_not_number _ O).
    + destruct t; try discriminate.
      * left. split; [apply doc_any; intros ->; discriminate|intros N; inversion N].
      * destruct k as [[]| | | | | | | | |]; try discriminate;
          (left; split; [apply doc_number; reflexivity|intros N; inversion N]).
      * destruct k; try discriminate. left. split; [apply doc_simple|intros N; inversion N].
      * destruct k; try discriminate; [left; split; [apply doc_list|intros N; inversion N]
                                      |left; split; [apply doc_set|intros N; inversion N]|right; apply ce_map].
  - intros [[D N]|C]; [|inversion C; subst; right; reflexivity].
    inversion D; subst; auto.
    + right. destruct k; congruence.
    + right. destruct s; try reflexivity; try exact H; destruct N; constructor.
Qed.
Lemma match_selects t s : ts_body s <> KUnresolved -> (match_by_shape_type t s = true <-> selects t (ts_body s)).
Proof.
  intros R. rewrite <- selectsb_spec.
  assert (E : match_by_shape_type t s = selectsb t (ts_body s)); [|rewrite E; reflexivity].
  unfold match_by_shape_type. destruct (ts_body s) as [[]| | | | | | | | |]; try congruence; destruct t; reflexivity.
Qed.

Section WithHasher.
  Context `{Hasher}.

  Definition keeps (m : model) (e : expr) (id : shape_id) : bool :=
    match e with
    | XShapeType t => match model_shape m id with Some s => match_by_shape_type t s | None => false end
    | _ => true
    end.
  Lemma query_types m sel l :
    types_only sel ->
    fold_left (fun acc e => p <- acc ;; query_one e p m) sel (Ok (PrShapes l))
    = Ok (PrShapes (filter (fun id => forallb (fun e => keeps m e id) sel) l)).
  Proof.
    revert l. induction sel as [|e sel IH]; intros l T.
    - cbn. f_equal. f_equal. induction l as [|x l IHl]; [reflexivity|]. cbn. f_equal. exact IHl.
    - cbn [fold_left]. assert (T' : types_only sel) by (intros x I; apply T; now right).
      assert (E : (p <- Ok (PrShapes l) ;; query_one e p m) = Ok (PrShapes (filter (keeps m e) l))).
      { specialize (T e (or_introl eq_refl)). destruct e; try destruct T; cbn; f_equal; f_equal;
          try reflexivity;
          (induction l as [|x l IHl]; [reflexivity|]; cbn; f_equal; exact IHl). }
      rewrite E, IH by exact T'. do 2 f_equal. clear.
      induction l as [|x l IHl]; [reflexivity|]. cbn [filter forallb].
      destruct (keeps m e x); cbn [filter andb]; [|exact IHl].
      destruct (forallb _ sel); [f_equal|]; exact IHl.
  Qed.
End WithHasher.

(** A selector of shape types selects the resolved shapes of the model that satisfy each of them,
    in the model's order. *)
Theorem C36_selects :
  forall (H : Hasher) (m : model) (sel : selector),
    keys_ok m -> types_only sel ->
    exists ids, query sel m = Ok (PrShapes ids)
      /\ (forall id, In id ids <->
            exists s, In s (shapes m) /\ ts_id s = id /\ ts_body s <> KUnresolved
              /\ forall t, In (XShapeType t) sel -> selects t (ts_body s))
      /\ exists p, ids = map ts_id (filter p (shapes m)).
Proof.
  intros H m sel K T. unfold query. rewrite (query_types m sel _ T).
  eexists; split; [reflexivity|].
  assert (G : forall s, In s (shapes m) -> model_shape m (ts_id s) = Some s).
  { intros s I. unfold shapes, hm_values in I. apply in_map_iff in I as ([k s'] & E & I). cbn in E; subst s'.
    destruct (proj1 K _ _ I) as [-> _]. apply model_shape_In; [apply K|assumption]. }
  assert (R : forall s, is_unresolved (ts_body s) = false <-> ts_body s <> KUnresolved).
  { intros s. destruct (ts_body s); cbn; split; congruence. }
  split.
  - intros id. rewrite filter_In. unfold shape_names. rewrite in_map_iff. split.
    + intros ((s & <- & I) & F). apply filter_In in I as [I U]. apply Bool.negb_true_iff in U. apply R in U.
      exists s. split; [exact I|]. split; [reflexivity|]. split; [exact U|].
      intros t It. rewrite forallb_forall in F. specialize (F _ It). cbn in F. rewrite (G s I) in F.
      apply match_selects in F; assumption.
    + intros (s & I & <- & U & F). split.
      * exists s. split; [reflexivity|]. apply filter_In. split; [exact I|]. apply Bool.negb_true_iff, R, U.
      * apply forallb_forall. intros e Ie. destruct e; try reflexivity. cbn. rewrite (G s I).
        apply match_selects; auto.
  - exists (fun s => negb (is_unresolved (ts_body s)) && forallb (fun e => keeps m e (ts_id s)) sel).
    unfold shape_names. generalize (shapes m). clear. intros l. induction l as [|s l IH]; [reflexivity|]. cbn.
    destruct (is_unresolved (ts_body s)); cbn; [exact IH|].
    destruct (forallb _ sel); cbn; [f_equal|]; exact IH.
Qed.
Print Assumptions C36_selects.

(** Each shape type but two selects what its documentation says, on every model. *)
Theorem C36_types :
  forall (t : shape_type) (k : shape_kind), t <> TyNumber -> t <> TyCollection ->
    (selects t k <-> documented t k).
Proof.
  intros t k N C. unfold selects. split.
  - intros [[D _]|X]; [exact D|inversion X; congruence].
  - intros D. left. split; [exact D|]. intros X; inversion X; congruence.
Qed.
Print Assumptions C36_types.

(** Every other kind of expression panics, wherever it is in the selector. *)
Theorem C36_unsupported :
  forall (H : Hasher) (m : model) (sel : selector),
    (query sel m = Panic <-> ~ types_only sel) /\ (forall e, query sel m <> Err e).
Proof.
  intros H m sel.
  assert (D : types_only sel \/ exists a e b, sel = a ++ e :: b /\ types_only a /\ ~ types_only [e]).
  { induction sel as [|e sel IH]; [left; intros x []|].
    assert (De : types_only [e] \/ ~ types_only [e]).
    { destruct e; try (left; intros x [<-|[]]; exact I); right; intros T; exact (T _ (or_introl eq_refl)). }
    destruct De as [Te|Te]; [|right; exists [], e, sel; repeat split; auto; intros x []].
    destruct IH as [T|(a & x & b & -> & Ta & Tx)].
    - left. intros y [<-|I]; [apply Te; now left|apply T, I].
    - right. exists (e :: a), x, b. split; [reflexivity|]. split; [|exact Tx].
      intros y [<-|I]; [apply Te; now left|apply Ta, I]. }
  destruct D as [T|(a & x & b & -> & Ta & Tx)].
  - unfold query. rewrite (query_types m sel _ T). split; [split; [discriminate|tauto]|discriminate].
  - assert (Q : query (a ++ x :: b) m = Panic).
    { unfold query. rewrite fold_left_app. rewrite (query_types m a _ Ta). cbn [fold_left].
      assert (E : forall p, (q <- Ok p ;; query_one x q m) = Panic).
      { intros p. destruct x; try reflexivity; exfalso; apply Tx; intros y [<-|[]]; exact I. }
      rewrite E. clear. induction b as [|y b IH]; [reflexivity|]. exact IH. }
    rewrite Q. split; [|discriminate]. split; [|reflexivity].
    intros _ T. apply Tx. intros y [<-|[]]. apply T, in_or_app. right; now left.
Qed.
Print Assumptions C36_unsupported.

Definition C36_number_and_collection_as_documented : Prop :=
  forall (H : Hasher) (m : model) (t : shape_type) (ids : list shape_id) (id : shape_id) (s : shape),
    model_ok m -> query [XShapeType t] m = Ok (PrShapes ids) -> model_shape m id = Some s ->
    (In id ids <-> documented t (ts_body s)).
Definition num_model : model :=
  Model V10 [] (map (fun s => (ts_id s, s))
    [Shape (ex_id "B") [] (KSimple SByte); Shape (ex_id "I") [] (KSimple SInteger); Shape (ex_id "L") [] (KSimple SLong);
     Shape (ex_id "M") [] (KMap (MS "key" [] (api_id "String")) (MS "value" [] (api_id "String")));
     Shape (ex_id "Tags") [] (KList (MS "member" [] (api_id "String")))]).
Lemma num_model_ok : @model_ok zero_hasher num_model.
Proof. solve_model_ok num_model. Qed.
Theorem C36_number_and_collection_as_documented_refuted :
  ~ C36_number_and_collection_as_documented
  /\ @query zero_hasher [XShapeType TyNumber] num_model = Ok (PrShapes [ex_id "I"])
  /\ @query zero_hasher [XShapeType TyCollection] num_model = Ok (PrShapes [ex_id "M"; ex_id "Tags"]).
Proof.
  split; [|split; vm_compute; reflexivity].
  intros C. specialize (C zero_hasher num_model TyNumber [ex_id "I"] (ex_id "B") (Shape (ex_id "B") [] (KSimple SByte))).
  destruct (C num_model_ok) as [_ C2]; [vm_compute; reflexivity|vm_compute; reflexivity|].
  destruct (C2 (doc_number SByte eq_refl)) as [E|[]]. vm_compute in E. discriminate.
Qed.
Print Assumptions C36_number_and_collection_as_documented_refuted.

Example C36_ex :
  @keys_ok zero_hasher motd /\ types_only [XShapeType TyAny; XShapeType TyStructure; XReference "x"]
  /\ @query zero_hasher [XShapeType TyAny; XShapeType TyStructure; XReference "x"] motd
     = Ok (PrShapes [ex_id "GetMessageInput"; ex_id "GetMessageOutput"; ex_id "BadDateValue"])
  /\ @query zero_hasher [XShapeType TyAny; XNeighbor NbForward; XShapeType TyStructure] motd = Panic.
Proof.
  split; [assert (O : @model_ok zero_hasher motd) by solve_model_ok motd; apply O|].
  split; [intros e [<-|[<-|[<-|[]]]]; exact I|]. split; vm_compute; reflexivity.
Qed.
