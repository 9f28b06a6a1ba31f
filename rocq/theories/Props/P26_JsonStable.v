(** C60: the JSON form of a model is canonical and stable. *)
From Coq Require Import Sorted.
From Verif.Model Require Import Json.
From Verif.Spec Require Import JsonSpec JsonStableSpec Witness.
From Verif.Proofs Require Import BaseFacts IdentityFacts HashMapFacts LinesFacts ReorderFacts ReorderEquiv JsonFacts JsonCanonFacts JsonStableFacts.
From Verif.Props Require P04_Lines P05_Json.

(** The document does not depend on the order in which hash maps are iterated. *)
Theorem C60_order_independent :
  forall (H : Hasher) (m1 m2 : model), model_writable m1 -> reorder_model m1 m2 ->
    exists j, model_to_json m1 = Ok j /\ model_to_json m2 = Ok j.
Proof.
  intros H m1 m2 W R. destruct (model_round m1 W) as (j & m' & E & _). exists j. split; [exact E|]. exact (model_canon m1 m2 W R j E).
Qed.
Print Assumptions C60_order_independent.

(** Two models have the same document exactly when they differ only in the order of maps and in what JSON does not
    keep: the names of the members of a map, and whether a trait has no value or the empty object. *)
Theorem C60_same_document :
  forall (H : Hasher) (m1 m2 : model), model_writable m1 -> model_writable m2 ->
    (model_to_json m1 = model_to_json m2 <-> reorder_model (json_image m1) (json_image m2)).
Proof.
  intros H m1 m2 W1 W2. destruct (model_round m1 W1) as (j1 & m1' & E1 & R1 & O1). destruct (model_round m2 W2) as (j2 & m2' & E2 & R2 & O2). split.
  - intros E. assert (j1 = j2) by congruence. subst j2. assert (m1' = m2') by congruence. subst m2'.
    eapply reorder_model_trans; [exact O1|]. apply reorder_model_sym, O2.
  - intros R. rewrite <- (json_image_written m1) in E1 |- *. rewrite <- (json_image_written m2).
    rewrite E1. symmetry. exact (model_canon _ _ (image_writable m1 W1) R j1 E1).
Qed.
Print Assumptions C60_same_document.

(** What was read from the document of a model is written as that document again. *)
Theorem C60_second_trip :
  forall (H : Hasher) (m : model) (j : json), model_writable m -> model_to_json m = Ok j ->
    exists m', read_model j = Ok m' /\ model_to_json m' = Ok j.
Proof.
  intros H m j W E. destruct (model_round m W) as (j' & m' & E' & R & O). assert (j' = j) by congruence. subst j'. exists m'. split; [exact R|].
  apply (model_canon _ _ (image_writable m W) O). rewrite json_image_written. exact E.
Qed.
Print Assumptions C60_second_trip.

(** Whatever document is accepted, the model can be written, and from then on reading and writing change nothing more. *)
Theorem C60_stable :
  forall (H : Hasher) (j : json) (m : model), json_ok j -> document_apart j -> read_model j = Ok m ->
    exists j' m', model_to_json m = Ok j' /\ read_model j' = Ok m'
      /\ reorder_model m m' /\ model_eqb m m' = true /\ model_to_json m' = Ok j'.
Proof.
  intros H j m O A R. destruct (read_model_writable j m O A R) as [W I]. destruct (P05_Json.C26_json_image H m W) as (j' & m' & E & R' & O' & Q).
  rewrite I in O', Q. exists j', m'. split; [exact E|]. split; [exact R'|]. split; [exact O'|]. split; [exact Q|]. exact (model_canon m m' W O' j' E).
Qed.
Print Assumptions C60_stable.

(** But the first writing can change a document: what the reader does not know is dropped. *)
Definition C60_unchanged : Prop :=
  forall (H : Hasher) (j : json) (m : model), json_ok j -> document_apart j -> read_model j = Ok m -> model_to_json m = Ok j.
Theorem C60_unchanged_refuted : ~ C60_unchanged.
Proof.
  intros C. specialize (C zero_hasher (JObject [(lit "comment", JNull); (lit "smithy", JString (lit "1.0"))]) (Model V10 [] [])).
  assert (E : model_to_json (Model V10 [] []) = Ok (JObject [(lit "comment", JNull); (lit "smithy", JString (lit "1.0"))])).
  { apply C; [|split|reflexivity].
    - constructor; [repeat constructor|]. repeat constructor.
    - intros k k' v v' i i' [].
    - intros k v ms []. }
  vm_compute in E. discriminate.
Qed.
Print Assumptions C60_unchanged_refuted.

Definition small_document : json :=
  JObject [(lit "shapes", JObject
             [(lit "example.motd#Pair", JObject
                [(lit "members", JObject
                    [(lit "a", JObject [(lit "target", JString (lit "smithy.api#String"))]);
                     (lit "b", JObject [(lit "target", JString (lit "example.motd#Word"))])]);
                 (lit "type", JString (lit "structure"))]);
              (lit "example.motd#Word", JObject
                [(lit "traits", JObject [(lit "smithy.api#length", JObject [(lit "min", JInt 1)])]); (lit "type", JString (lit "string"))])]);
           (lit "smithy", JString (lit "1.0"))].
Example C60_ex :
  @model_writable byte_hasher motd /\ reorder_model motd P04_Lines.motd_backwards /\ motd <> P04_Lines.motd_backwards
  /\ json_ok small_document /\ @document_apart byte_hasher small_document
  /\ exists m, @read_model byte_hasher small_document = Ok m /\ List.length (m_shapes m) = 2%nat.
Proof.
  split; [apply P05_Json.C26_ex|]. destruct P04_Lines.C23_ex as [R N]. split; [exact R|]. split; [exact N|]. split; [|split].
  - unfold small_document.
    repeat first [apply Forall_cons|apply Forall_nil|apply SSorted_cons|apply SSorted_nil|apply jo_null|apply jo_string|apply jo_bool|apply jo_object|apply jo_array|apply jo_int].
    all: try (vm_compute; reflexivity). all: lia.
  - split.
    + intros k k' v v' i i' A B Ei Ei' Q. cbn in A, B. destruct A as [A|[A|[]]], B as [B|[B|[]]]; injection A as <- <-; injection B as <- <-; try reflexivity;
        vm_compute in Ei; injection Ei as <-; vm_compute in Ei'; injection Ei' as <-; vm_compute in Q; discriminate.
    + intros k v ms A G. cbn in A. destruct A as [A|[A|[]]]; injection A as <- <-; vm_compute in G; [|discriminate]. injection G as <-.
      intros k k' v v' A B Q. cbn in A, B. destruct A as [A|[A|[]]], B as [B|[B|[]]]; injection A as <- <-; injection B as <- <-; try reflexivity; vm_compute in Q; discriminate.
  - eexists. split; vm_compute; reflexivity.
Qed.
