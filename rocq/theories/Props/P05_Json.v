(** C25-C27, C41: the JSON AST (atelier-json/src/{reader,writer}.rs). *)
From Verif.Model Require Import Json.
From Verif.Spec Require Import IdentitySpec ModelSpec ReorderSpec JsonSpec Witness.
From Verif.Proofs Require Import BaseFacts IdentityFacts HashMapFacts ReorderFacts LinesFacts JsonFacts.
From Coq Require Import Sorted.

(* ---------------------------------------------------------------- C25 *)
(** The unrestricted claims, refuted below. *)
Definition value_survives_json : Prop :=
  forall v, value_ok v -> exists j, write_value v = Ok j /\ reorder_value v (read_value j).
Definition json_survives_value : Prop :=
  forall j, json_ok j -> write_value (read_value j) = Ok j.

(** Values without NaN or infinities: what comes back is the same value (objects possibly iterated
    in another order), and [==] to it. *)
Theorem C25_value_round_trip :
  forall v : value, value_ok v -> finite_value v ->
    exists j, write_value v = Ok j /\ reorder_value v (read_value j) /\ value_eqb v (read_value j) = true.
Proof.
  intros v O F. destruct (write_value_finite v F) as [j E]. exists j. split; [exact E|].
  assert (R := write_read_value v j O F E). split; [exact R|]. apply reorder_value_eqb; [exact O|apply finite_nan_free, F|exact R].
Qed.
Print Assumptions C25_value_round_trip.

(** JSON without integers above [i64::MAX]: the very same JSON comes back. *)
Theorem C25_json_round_trip :
  forall j : json, json_ok j -> json_i64 j -> write_value (read_value j) = Ok j.
Proof. exact read_write_value. Qed.
Print Assumptions C25_json_round_trip.

(** What the writer produces is valid JSON (keys sorted and distinct, floats finite) with integers in
    range, for values as Rust can build them: so [C25_json_round_trip] applies to it. *)
Theorem C25_written_is_json :
  forall v : value, value_ok v -> finite_value v -> exists j, write_value v = Ok j /\ json_ok j /\ json_i64 j.
Proof.
  intros v O F. destruct (write_value_finite v F) as [j E]. exists j. split; [exact E|]. split; [eapply write_value_ok|eapply write_value_i64]; eassumption.
Qed.
Print Assumptions C25_written_is_json.

Ltac solve_finite := repeat match goal with
  | |- finite_value (VArray _) => apply fv_array
  | |- finite_value (VObject _) => apply fv_object
  | |- finite_value (VNumber (NInteger _)) => apply fv_int; vm_compute; split; discriminate
  | |- finite_value (VNumber (NFloat _)) => apply fv_float; split; vm_compute; reflexivity
  | |- finite_value _ => constructor
  | |- Forall _ [] => apply Forall_nil
  | |- Forall _ (_ :: _) => apply Forall_cons; cbn [snd]
  end.
Definition deep_value : value :=
  VObject [(lit "z", VArray [VNumber (NInteger (-3)); VNone; VBoolean false]);
           (lit "a", VObject [(lit "pi", VNumber (NFloat 0x400921FB54442D18)); (lit "e", VString "2.7")])].
Example C25_ex : value_ok deep_value /\ finite_value deep_value
  /\ (exists j, write_value deep_value = Ok j /\ json_ok j /\ json_i64 j) /\ exists j, write_value deep_value = Ok j /\ read_value j <> deep_value.
Proof.
  assert (A : value_ok deep_value). { unfold deep_value. solve_ok. }
  assert (B : finite_value deep_value).
  { unfold deep_value. solve_finite. }
  split; [exact A|]. split; [exact B|]. split; [apply C25_written_is_json; assumption|].
  eexists. split; [vm_compute; reflexivity|vm_compute; discriminate].
Qed.

Theorem C25_json_refuted : ~ json_survives_value.
Proof.
  intros F. specialize (F (JInt 0x8000000000000000) ltac:(constructor; lia)). vm_compute in F. discriminate.
Qed.
Print Assumptions C25_json_refuted.
Theorem C25_value_refuted : ~ value_survives_json.
Proof.
  intros F. destruct (F (VNumber (NFloat 0x7FF0000000000000)) ltac:(constructor)) as (j & E & _). vm_compute in E. discriminate.
Qed.
Print Assumptions C25_value_refuted.

(* ---------------------------------------------------------------- C26 *)
(** The unrestricted claim, refuted below. *)
Definition model_survives_json `{Hasher} : Prop :=
  forall m, model_writable m -> exists j m', model_to_json m = Ok j /\ read_model j = Ok m' /\ model_eqb m m' = true.

(** Every writable model is written and read back as its JSON image: the same model with the keys and
    values of maps called "member" and with [{}] as value of the traits that had none. *)
Theorem C26_json_image :
  forall (H : Hasher) (m : model), model_writable m ->
    exists j m', model_to_json m = Ok j /\ read_model j = Ok m'
                 /\ reorder_model (json_image m) m' /\ model_eqb (json_image m) m' = true.
Proof.
  intros H m W. destruct (model_round m W) as (j & m' & E & R & O). exists j, m'. split; [exact E|]. split; [exact R|]. split; [exact O|].
  apply reorder_model_eqb; [apply json_image_clean, W|exact O].
Qed.
Print Assumptions C26_json_image.

(** Models without maps and without valueless traits come back equal. *)
Theorem C26_round_trip :
  forall (H : Hasher) (m : model), model_writable m -> json_faithful m ->
    exists j m', model_to_json m = Ok j /\ read_model j = Ok m' /\ reorder_model m m' /\ model_eqb m m' = true.
Proof.
  intros H m W F. destruct (C26_json_image H m W) as (j & m' & E). exists j, m'. rewrite (json_faithful_image m F) in E. exact E.
Qed.
Print Assumptions C26_round_trip.

(** A second trip changes nothing more: images are faithful. *)
Theorem C26_image_stable :
  forall m : model, (forall e, In e (m_shapes m) -> forall k v, ts_body (snd e) <> KMap k v) -> json_faithful (json_image m).
Proof.
  intros m NM. unfold json_faithful, json_image. cbn. apply Forall_map, Forall_forall. intros [k [id ts b]] I. specialize (NM _ I). cbn in *.
  assert (V : forall l, traits_valued (json_traits l)) by (intros l; unfold traits_valued, json_traits; apply Forall_map, Forall_forall; intros [? ?] _; cbn; discriminate).
  split; [apply V|]. split.
  - destruct b; cbn; try discriminate. exfalso. eapply NM; reflexivity.
  - apply Forall_forall. intros mb J. destruct b; cbn in J; repeat (destruct J as [<-|J]); try contradiction; try apply V;
      rewrite map_map in J; apply in_map_iff in J as (e & <- & _); apply V.
Qed.
Print Assumptions C26_image_stable.

Ltac solve_valid := vm_compute; first [reflexivity | discriminate].
Ltac solve_writable :=
  repeat (cbn [fst snd ts_id ts_traits ts_body members_of map ms_id ms_target ms_traits];
  match goal with
    | |- Forall _ [] => apply Forall_nil
    | |- Forall _ (_ :: _) => apply Forall_cons
    | |- _ /\ _ => split
    | |- True => exact I
    | |- traits_writable _ => unfold traits_writable
    | |- body_writable _ => unfold body_writable; cbn
    | |- member_writable _ => unfold member_writable; cbn
    | |- opt_valid _ => cbn
    | |- traits_ok _ => solve_ok
    | |- valid_id _ => apply valid_idb_spec; vm_compute; reflexivity
    | |- is_identifier _ => apply ident_is_valid_spec; vm_compute; reflexivity
    | |- finite_value _ => solve_finite
    | |- _ <> _ => discriminate
    | |- _ = _ => reflexivity
    end).
Definition motd_more : model :=
  Model V10 [(lit "domain", VString "motd"); (lit "owners", VObject [(lit "team", VNumber (NInteger 7))])]
    (map (fun s => (ts_id s, s))
       [motd_date; motd_input; motd_output; motd_resource; motd_service; motd_unresolved;
        Shape (ex_id "Tags") [] (KSet (MS "member" [(api_id "length", Some (VObject [(lit "min", VNumber (NInteger 1))]))] (api_id "String")));
        Shape (ex_id "GetMessage") [(api_id "readonly", Some (VObject []))]
          (KOperation (Operation (Some (ex_id "GetMessageInput")) None [ex_id "BadDateValue"]))]).
Example C26_ex : model_writable (H := byte_hasher) motd_more /\ json_faithful motd_more /\ model_writable (H := byte_hasher) motd /\ ~ json_faithful motd.
Proof.
  split; [|split; [|split]].
  - split; [unfold motd_more; solve_model_ok motd_more|]. split; cbn; autounfold with witness; solve_writable.
  - unfold json_faithful. cbn. repeat (apply Forall_cons || apply Forall_nil); cbn; (split; [|split; [intros; discriminate|]]); unfold traits_valued;
      repeat (apply Forall_cons || apply Forall_nil); cbn; try discriminate; repeat (apply Forall_cons || apply Forall_nil); cbn; discriminate.
  - split; [solve_model_ok motd|]. split; cbn; autounfold with witness; solve_writable.
  - intros F. unfold json_faithful in F. rewrite Forall_forall in F. destruct (F (ts_id motd_op, motd_op)) as (V & _).
    + unfold motd. cbn. tauto.
    + unfold traits_valued in V. inversion V as [|? ? C _]; subst. apply C. reflexivity.
Qed.

(** A map does not survive, whatever the hasher: its key is called "key" before and "member" after. *)
Definition map_model : model :=
  Model V10 [] [(ex_id "Dict", Shape (ex_id "Dict") [] (KMap (MS "key" [] (api_id "String")) (MS "value" [] (api_id "String"))))].
Theorem C26_map_refuted : forall H : Hasher, ~ model_survives_json.
Proof.
  intros H F. destruct (F map_model) as (j & m' & E & R & Q).
  - split; [solve_model_ok map_model|]. split; cbn; solve_writable.
  - vm_compute in E. injection E as <-. vm_compute in R. injection R as <-. unfold model_eqb, map_model, hm_eqb in Q. cbn in Q.
    rewrite (eqv_refl _ sid_key_equiv) in Q. cbn in Q. discriminate.
Qed.
Print Assumptions C26_map_refuted.
(** Nor does a trait without value. *)
Definition trait_model : model := Model V10 [] [(ex_id "S", Shape (ex_id "S") [(api_id "sensitive", None)] (KSimple SString))].
Theorem C26_trait_refuted : forall H : Hasher,
  exists j m', model_writable trait_model /\ model_to_json trait_model = Ok j /\ read_model j = Ok m' /\ model_eqb trait_model m' = false.
Proof.
  intros H. eexists. eexists. split; [|split; [vm_compute; reflexivity|split; [vm_compute; reflexivity|]]].
  - split; [solve_model_ok trait_model|]. split; cbn; solve_writable.
  - unfold model_eqb, trait_model, hm_eqb, shape_eqb, traits_eqb, hm_eqb. cbn. rewrite (eqv_refl _ sid_key_equiv). cbn. unfold shape_eqb, traits_eqb, hm_eqb. cbn.
    rewrite (eqv_refl _ sid_key_equiv). reflexivity.
Qed.
Print Assumptions C26_trait_refuted.

(* ---------------------------------------------------------------- C27 *)
(** The full claim is refuted by the theorem: writing panics exactly when the model holds a NaN or an
    infinity, and returns otherwise (it never returns an error). *)
Definition json_writer_total : Prop := forall m, exists j, model_to_json m = Ok j.
Theorem C27_writer_panics_iff :
  forall m : model,
    (model_to_json m = Panic <-> model_non_finite m)
    /\ (~ model_non_finite m <-> exists j, model_to_json m = Ok j).
Proof.
  intros m. destruct (settles_model m) as [[[j E] N]|[E N]]; rewrite E; split; split; intros X; try discriminate; try contradiction; eauto.
  destruct X; discriminate.
Qed.
Print Assumptions C27_writer_panics_iff.
Definition nan_model : model :=
  Model V10 [] [(ex_id "S", Shape (ex_id "S") [(api_id "range", Some (VObject [(lit "max", VNumber (NFloat 0x7FF8000000000000))]))] (KSimple SDouble))].
Theorem C27_refuted : ~ json_writer_total.
Proof. intros F. destruct (F nan_model) as [j E]. vm_compute in E. discriminate. Qed.
Print Assumptions C27_refuted.
Example C27_ex : model_non_finite nan_model /\ model_ok (H := zero_hasher) nan_model /\ ~ model_non_finite motd.
Proof.
  split; [apply C27_writer_panics_iff; vm_compute; reflexivity|]. split; [solve_model_ok nan_model|].
  apply C27_writer_panics_iff. eexists. vm_compute. reflexivity.
Qed.

(* ---------------------------------------------------------------- C41 *)
Definition json_reader_never_panics `{Hasher} : Prop := forall j, json_ok j -> read_model j <> Panic.
(** The JSON reader panics only on a service whose version is the empty string, or when two entries of
    "shapes" name the same shape up to letter case. *)
Theorem C41_reader_panics_only :
  forall (H : Hasher) (j : json), read_model j = Panic ->
    (exists k v, In (k, v) (shape_entries j) /\ empty_version_service v)
    \/ (exists a k v b k' v' c id id', shape_entries j = a ++ (k, v) :: b ++ (k', v') :: c
          /\ sid_from_str k = Ok id /\ sid_from_str k' = Ok id' /\ sid_eqb id id' = true).
Proof. intros H j. apply read_model_panic. Qed.
Print Assumptions C41_reader_panics_only.
Definition service_doc (version : str) : json :=
  JObject [(lit "shapes", JObject [(lit "a#S", JObject [(lit "type", JString (lit "service")); (lit "version", JString version)])]);
           (lit "smithy", JString (lit "1.0"))].
Theorem C41_refuted : forall H : Hasher, ~ json_reader_never_panics.
Proof.
  intros H F. apply (F (service_doc [])).
  - unfold service_doc. repeat (constructor; cbn); vm_compute; reflexivity.
  - vm_compute. reflexivity.
Qed.
Print Assumptions C41_refuted.
(** The other case happens too, when the hash of the two spellings happens to be the same. *)
Definition twin_doc : json :=
  let st n := JObject [(lit "members", JObject [(lit n, JObject [(lit "target", JString (lit "a#T"))])]); (lit "type", JString (lit "structure"))] in
  JObject [(lit "shapes", JObject [(lit "a#Foo", st "x"%string); (lit "a#foo", st "y"%string)]); (lit "smithy", JString (lit "1.0"))].
Example C41_ex : read_model (H := zero_hasher) twin_doc = Panic /\ (exists m, read_model (H := byte_hasher) twin_doc = Ok m)
  /\ read_model (H := zero_hasher) (service_doc []) = Panic.
Proof. split; [vm_compute; reflexivity|]. split; [eexists; vm_compute; reflexivity|vm_compute; reflexivity]. Qed.
