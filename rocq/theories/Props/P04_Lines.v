(** C23-C24: the line-oriented form (atelier-core/src/io/lines.rs). *)
From Verif.Model Require Import Lines.
From Verif.Spec Require Import IdentitySpec ModelSpec LinesSpec Witness.
From Verif.Proofs Require Import BaseFacts IdentityFacts HashMapFacts ModelFacts LinesFacts LinesUnique.
From Coq Require Import Sorted.

(* ---------------------------------------------------------------- C23 *)
(** Whatever order the hash maps of a model (metadata, shapes, traits, members, object values,
    renames, identifiers) are iterated in, the lines are the same, and they are sorted. *)
Theorem C23_canonical :
  forall (f64_str : Z -> str) (debug_str : str -> str) (m1 m2 : model),
    reorder_model m1 m2 ->
    make_line_oriented_form f64_str debug_str m1 = make_line_oriented_form f64_str debug_str m2
    /\ line_writer f64_str debug_str m1 = line_writer f64_str debug_str m2
    /\ StronglySorted (fun a b => str_leb a b = true) (make_line_oriented_form f64_str debug_str m1).
Proof.
  intros f d m1 m2 R. pose proof (form_reorder f d m1 m2 R) as E. split; [exact E|]. split.
  - unfold line_writer. rewrite E. reflexivity.
  - apply sort_strings_ordered.
Qed.
Print Assumptions C23_canonical.

(** motd read with every map iterated backwards. *)
Definition motd_backwards : model :=
  Model V10 [(lit "owners", VObject [(lit "team", VNumber (NInteger 7))]); (lit "domain", VString "motd")]
    (map (fun s => (ts_id s, s))
       [motd_unresolved; motd_service; motd_resource; motd_op;
        Shape (ex_id "BadDateValue") [(api_id "deprecated", None); (api_id "error", Some (VString "client"))]
          (KStructure [ex_member "errorMessage" (api_id "String")]);
        Shape (ex_id "GetMessageOutput") []
          (KStructure [ex_member "day" (ex_id "Date"); ex_member "message" (api_id "String")]);
        motd_input; motd_date]).
Lemma rev_reordered {K V} (R : V -> V -> Prop) (a b : list (K * V)) :
  Forall2 (fun x y => fst x = fst y /\ R (snd x) (snd y)) (rev a) b -> reordered R a b.
Proof. intros F. exists (rev a). split; [apply Permutation_rev|exact F]. Qed.
Lemma reorder_shape_refl s : reorder_shape s s.
Proof.
  split; [reflexivity|]. split; [|apply rb_same]. exists (ts_traits s). split; [reflexivity|].
  induction (ts_traits s) as [|[k [v|]] l IH]; constructor; auto; split; cbn; auto; constructor; apply rv_same.
Qed.
Lemma reorder_member_refl m : reorder_member m m.
Proof.
  split; [reflexivity|]. split; [reflexivity|]. exists (ms_traits m). split; [reflexivity|].
  induction (ms_traits m) as [|[k [v|]] l IH]; constructor; auto; split; cbn; auto; constructor; apply rv_same.
Qed.
Example C23_ex : reorder_model motd motd_backwards /\ motd <> motd_backwards.
Proof.
  split; [|intros E; discriminate E]. split; [reflexivity|]. split.
  - apply rev_reordered. cbn. repeat constructor.
  - apply rev_reordered. cbn. repeat (constructor; [split; [reflexivity|first [apply reorder_shape_refl|idtac]]|]); [| |constructor].
    + cbn. split; [reflexivity|]. split; [|apply rb_same]. apply rev_reordered. cbn. repeat (constructor; auto).
    + cbn. split; [reflexivity|]. split; [exists []; repeat constructor|]. apply rb_structure. apply rev_reordered. cbn.
      repeat constructor; apply reorder_member_refl.
Qed.

(* ---------------------------------------------------------------- C24 *)
(** The full claim: models with the same lines are equal. *)
Definition lines_determine_model `{Hasher} (f64_str : Z -> str) (debug_str : str -> str) : Prop :=
  forall m1 m2, model_ok m1 -> model_ok m2 ->
    make_line_oriented_form f64_str debug_str m1 = make_line_oriented_form f64_str debug_str m2 -> model_eqb m1 m2 = true.

(** It fails: the order of the errors of an operation is lost, and metadata keys are not escaped. *)
Definition two_errors (a b : string) : model :=
  Model V10 [] [(ex_id "Op", Shape (ex_id "Op") [] (KOperation (Operation None None [ex_id a; ex_id b])))].
Definition nested_key : model :=
  Model V10 [(lit "a", VObject [(lit "b", VObject [(lit "c", VNone)])])] [].
Definition forged_key : model :=
  Model V10 [(lit "a", VObject [(lit "b}={c", VNone)])] [].
Theorem C24_lines_determine_model_refuted :
  forall (H : Hasher) (f64_str : Z -> str) (debug_str : str -> str), ~ lines_determine_model f64_str debug_str.
Proof.
  intros H f d C. specialize (C nested_key forged_key).
  assert (E : model_eqb nested_key forged_key = false) by reflexivity.
  rewrite C in E; [discriminate| | |reflexivity]; solve_model_ok nested_key || solve_model_ok forged_key.
Qed.
Print Assumptions C24_lines_determine_model_refuted.

Theorem C24_error_order_refuted :
  forall (H : Hasher) (f64_str : Z -> str) (debug_str : str -> str),
    make_line_oriented_form f64_str debug_str (two_errors "A" "B") = make_line_oriented_form f64_str debug_str (two_errors "B" "A")
    /\ model_eqb (two_errors "A" "B") (two_errors "B" "A") = false.
Proof.
  intros H f d. split; [reflexivity|]. unfold model_eqb, hm_eqb. cbn -[sid_key_eqb].
  unfold sid_key_eqb. rewrite Z.eqb_refl. reflexivity.
Qed.
Print Assumptions C24_error_order_refuted.

(** What the lines of any model with valid names determine: which shapes there are, of which kind, and
    what they refer to under which label (members, inputs, outputs, errors, operations, resources). *)
Theorem C24_lines_determine_structure :
  forall (H : Hasher) (f64_str : Z -> str) (debug_str : str -> str) (m1 m2 : model),
    keys_ok m1 -> keys_ok m2 -> names_valid m1 -> names_valid m2 ->
    make_line_oriented_form f64_str debug_str m1 = make_line_oriented_form f64_str debug_str m2 ->
    forall id s1, model_shape m1 id = Some s1 ->
      exists s2, model_shape m2 id = Some s2
                 /\ ts_id s2 = ts_id s1
                 /\ same_kind (ts_body s2) (ts_body s1)
                 /\ forall n t, points_to (ts_body s1) n t <-> points_to (ts_body s2) n t.
Proof.
  intros H f d m1 m2 K1 K2 N1 N2 E id s1 G.
  apply model_shape_Some_In in G as [I1 Kk]; [|exact K1].
  destruct (N1 _ _ I1) as [V1 P1].
  assert (D : In (kind_name (ts_body s1) ++ sep ++ id_text (ts_id s1)) (make_line_oriented_form f d m1))
    by (apply form_definition; eauto).
  rewrite E in D. apply form_definition in D as (k & s2 & I2 & Es & Ks); auto.
  destruct (proj1 K2 _ _ I2) as [-> _]. destruct (N2 _ _ I2) as [V2 P2].
  exists s2. split.
  { rewrite <- (model_shape_cong m2 (ts_id s2) id); [|rewrite Es; exact Kk]. apply model_shape_In; [apply K2|exact I2]. }
  split; [exact Es|]. split; [apply kind_name_same, Ks|]. intros n t. split; intros P.
  - destruct (P1 _ _ P) as [Vn Vt].
    assert (L : In (kind_name (ts_body s1) ++ sep ++ id_text (ts_id s1) ++ sep ++ n ++ tgt ++ id_text t) (make_line_oriented_form f d m1))
      by (apply form_reference; eauto 10).
    rewrite E in L. apply form_reference in L as (k & s3 & I3 & Es3 & _ & P3); auto.
    destruct (proj1 K2 _ _ I3) as [-> _].
    assert (X : s3 = s2). { pose proof (model_shape_In _ _ _ (proj1 (proj2 K2)) I3) as A; pose proof (model_shape_In _ _ _ (proj1 (proj2 K2)) I2) as B. congruence. }
    subst s3. exact P3.
  - destruct (P2 _ _ P) as [Vn Vt].
    assert (L : In (kind_name (ts_body s2) ++ sep ++ id_text (ts_id s2) ++ sep ++ n ++ tgt ++ id_text t) (make_line_oriented_form f d m2))
      by (apply form_reference; eauto 10).
    rewrite <- E in L. apply form_reference in L as (k & s3 & I3 & Es3 & _ & P3); auto.
    destruct (proj1 K1 _ _ I3) as [-> _].
    assert (X : s3 = s1). { pose proof (model_shape_In _ _ _ (proj1 (proj2 K1)) I3) as A; pose proof (model_shape_In _ _ _ (proj1 (proj2 K1)) I1) as B. congruence. }
    subst s3. exact P3.
Qed.
Print Assumptions C24_lines_determine_structure.

Example C24_ex :
  @keys_ok zero_hasher motd /\ @keys_ok zero_hasher motd_backwards /\ names_valid motd /\ names_valid motd_backwards
  /\ (forall f d, make_line_oriented_form f d motd = make_line_oriented_form f d motd_backwards).
Proof.
  assert (O : @model_ok zero_hasher motd) by (solve_model_ok motd).
  assert (O' : @model_ok zero_hasher motd_backwards) by (solve_model_ok motd_backwards).
  split; [apply O|]. split; [apply O'|]. split; [|split].
  - apply names_validb_sound. vm_compute. reflexivity.
  - apply names_validb_sound. vm_compute. reflexivity.
  - intros f d. apply C23_canonical, C23_ex.
Qed.

(** And exactly what they determine, for models whose lines can be read unambiguously ([lined_model]):
    everything except the order of lists of ids. [debug_str] is the text Rust's [{:?}] gives a string. *)
Theorem C24_lines_determine_lined_models :
  forall (f64_str : Z -> str) (debug_str : str -> str) (m1 m2 : model),
    (forall a b, debug_str a = debug_str b -> a = b) ->
    lined_model m1 -> lined_model m2 ->
    (make_line_oriented_form f64_str debug_str m1 = make_line_oriented_form f64_str debug_str m2
     <-> alike_model m1 m2).
Proof.
  intros f d m1 m2 I L1 L2. split; [apply same_lines_alike; assumption|apply form_alike].
Qed.
Print Assumptions C24_lines_determine_lined_models.

Ltac solve_lined :=
  repeat first
    [ exact I | reflexivity
    | apply valid_idb_spec; vm_compute; reflexivity
    | apply ident_is_valid_spec; vm_compute; reflexivity
    | progress (cbn [fst snd map m_metadata m_shapes ts_id ts_traits ts_body ms_id ms_target ms_traits
                     valid_opt lined_body motd_date motd_input motd_output motd_error motd_op motd_resource motd_service motd_unresolved ex_member
                     sv_operations sv_resources sv_renames op_input op_output op_errors
                     rs_identifiers rs_create rs_put rs_read rs_update rs_delete rs_list rs_operations
                     rs_collection_operations rs_resources])
    | match goal with
      | |- _ /\ _ => split
      | |- Forall _ _ => constructor
      | |- valid_ids _ => constructor
      | |- NoDup _ => constructor
      | |- lined_value _ => constructor
      | |- lined_members _ => split
      | |- lined_member _ => split
      | |- lined_traits _ => split
      | |- ~ In _ _ => intros X; repeat (destruct X as [X|X]; [discriminate X|]); destruct X
      end ].
Example C24_lined_ex :
  lined_model motd /\ lined_model motd_backwards /\ alike_model motd motd_backwards
  /\ lined_model (two_errors "A" "B") /\ alike_model (two_errors "A" "B") (two_errors "B" "A").
Proof.
  assert (L : lined_model motd) by (unfold motd, lined_model; solve_lined).
  assert (L' : lined_model motd_backwards) by (unfold motd_backwards, lined_model; solve_lined).
  split; [exact L|]. split; [exact L'|]. split.
  - apply (C24_lines_determine_lined_models (fun _ => []) (fun s => s)); auto.
  - split; [unfold two_errors, lined_model; solve_lined|]. split; [reflexivity|]. split; [exists []; split; constructor|].
    eexists. split; [reflexivity|]. constructor; [|constructor].
    cbn [fst snd]. split; [reflexivity|]. split; [reflexivity|]. split; [exists []; split; constructor|].
    apply al_operation. split; [reflexivity|]. split; [reflexivity|]. apply perm_swap.
Qed.
