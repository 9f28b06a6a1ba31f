(** C65: [==] on values, shapes and models. *)
From Verif.Model Require Import SemModel.
From Verif.Spec Require Import EqualitySpec ReorderSpec Witness.
From Verif.Proofs Require Import BaseFacts IdentityFacts HashMapFacts ValueFacts ShapeFacts EqualityFacts.
From Verif.Props Require Import P04_Lines.

(** [==] says exactly that the same things are found under the same names. *)
Theorem C65_decides :
  (forall a b, value_ok a -> value_ok b -> (value_eqb a b = true <-> same_value a b))
  /\ (forall (H : Hasher) a b, shape_maps a -> shape_maps b -> (shape_eqb a b = true <-> equal_shape a b))
  /\ (forall (H : Hasher) a b, model_maps a -> model_maps b -> (model_eqb a b = true <-> equal_model a b)).
Proof.
  split; [intros a b; apply value_eqb_spec|]. split; intros H a b; [apply shape_eqb_spec|apply model_eqb_spec].
Qed.

(** Symmetric and transitive. *)
Theorem C65_symmetric :
  (forall a b, value_ok a -> value_ok b -> value_eqb a b = value_eqb b a)
  /\ (forall (H : Hasher) a b, shape_maps a -> shape_maps b -> shape_eqb a b = shape_eqb b a)
  /\ (forall (H : Hasher) a b, model_maps a -> model_maps b -> model_eqb a b = model_eqb b a).
Proof.
  assert (B : forall x y : bool, (x = true <-> y = true) -> x = y) by (intros [] []; intuition congruence).
  split; [|split]; intros; apply B.
  - rewrite !value_eqb_spec by assumption. split; apply same_value_symm.
  - rewrite !shape_eqb_spec by assumption. split; apply equal_shape_sym.
  - rewrite !model_eqb_spec by assumption. split; apply equal_model_sym.
Qed.
Theorem C65_transitive :
  (forall a b c, value_ok a -> value_ok b -> value_ok c -> value_eqb a b = true -> value_eqb b c = true -> value_eqb a c = true)
  /\ (forall (H : Hasher) a b c, shape_maps a -> shape_maps b -> shape_maps c ->
        shape_eqb a b = true -> shape_eqb b c = true -> shape_eqb a c = true)
  /\ (forall (H : Hasher) a b c, model_maps a -> model_maps b -> model_maps c ->
        model_eqb a b = true -> model_eqb b c = true -> model_eqb a c = true).
Proof.
  split; [|split].
  - intros a b c A B C. rewrite !value_eqb_spec by assumption. intros X Y. exact (same_value_trans _ _ X _ Y).
  - intros H a b c A B C. rewrite !shape_eqb_spec by assumption. apply equal_shape_trans.
  - intros H a b c A B C. rewrite !model_eqb_spec by assumption. apply equal_model_trans.
Qed.

(** Anything differs from itself exactly when there is a NaN in it: in a value, in the traits of a
    shape, in the traits of one of its members, in the metadata. *)
Theorem C65_reflexive :
  (forall v, value_ok v -> (value_eqb v v = false <-> has_nan v))
  /\ (forall (H : Hasher) s, shape_maps s -> (shape_eqb s s = true <-> ~ shape_nan s))
  /\ (forall (H : Hasher) m, model_maps m -> (model_eqb m m = true <-> ~ model_nan m)).
Proof.
  split; [|split].
  - intros v O. split.
    + intros E. destruct (has_nan_dec v) as [N|N]; [exact N|]. apply (same_value_self v O), value_eqb_spec in N; congruence.
    + intros N. destruct (value_eqb v v) eqn:E; [|reflexivity]. apply value_eqb_spec in E; [|exact O|exact O]. apply (same_value_self v O) in E. contradiction.
  - intros H s M. rewrite shape_eqb_spec by assumption. apply equal_shape_self, M.
  - intros H m M. rewrite model_eqb_spec by assumption. apply equal_model_self, M.
Qed.

(** Equal models answer the same questions: the same metadata keys and ids, and the same completeness. *)
Theorem C65_observed :
  forall (H : Hasher) a b, model_maps a -> model_maps b -> model_eqb a b = true ->
    (forall k, metadata_value a k = None <-> metadata_value b k = None)
    /\ (forall id, has_shape a id = has_shape b id)
    /\ is_complete a = is_complete b
    /\ length (shapes a) = length (shapes b).
Proof.
  intros H a b Ma Mb E. assert (L : length (m_shapes a) = length (m_shapes b)).
  { unfold model_eqb, hm_eqb in E. rewrite !andb_true_iff, !Nat.eqb_eq in E. tauto. }
  apply model_eqb_spec in E; [|assumption|assumption].
  assert (X : forall x y, model_maps x -> equal_model x y -> is_complete y = true -> is_complete x = true).
  { intros x y (_ & D & _ & _) (_ & _ & S). unfold is_complete. rewrite !negb_true_iff. intros C.
    apply Bool.not_true_is_false. intros T. apply existsb_exists in T as (s & I & U). unfold shapes, hm_values in I.
    apply in_map_iff in I as ([k s'] & Es & I). cbn in Es. subst s'. specialize (S k). unfold model_shape in S.
    rewrite (hm_get_In sid_key_eqb sid_key_equiv _ k s D I) in S.
    destruct (hm_get sid_key_eqb k (m_shapes y)) as [t|] eqn:G; [|destruct S].
    destruct S as (_ & _ & B). apply hm_get_Some_In in G as (k' & I' & _).
    assert (Y : existsb (fun s => is_unresolved (ts_body s)) (shapes y) = true).
    { apply existsb_exists. exists t. split; [apply (in_map snd) in I'; exact I'|]. destruct B; cbn in U |- *; congruence. }
    congruence. }
  pose proof (equal_model_sym _ _ E) as E'.
  split; [intros k; apply (opt_rel_none same_value), E|].
  split; [intros id; destruct E as (_ & _ & S); specialize (S id); unfold has_shape, hm_contains, model_shape in *;
          destruct (hm_get _ id (m_shapes a)), (hm_get _ id (m_shapes b)); cbn in S; tauto|].
  split; [|unfold shapes, hm_values; rewrite !map_length; exact L].
  destruct (is_complete b) eqn:Cb; [exact (X a b Ma E Cb)|].
  destruct (is_complete a) eqn:Ca; [|reflexivity]. rewrite (X b a Mb E' Ca) in Cb. discriminate.
Qed.

(** The full claim, that [==] is an equivalence, fails: a model need not equal itself. *)
Definition nan_doc : model := Model V10 [(lit "x", VArray [VNumber (NFloat 9221120237041090560)])] [].
Theorem C65_reflexive_refuted : ~ forall (H : Hasher) m, model_ok m -> model_eqb m m = true.
Proof.
  intros F. assert (O : @model_ok zero_hasher nan_doc) by (solve_model_ok nan_doc). specialize (F _ _ O). vm_compute in F. discriminate.
Qed.
(** Nor does [==] of two models depend on the models only: ids that differ in case are equal, but
    whether they are found depends on their hashes. *)
Definition one_shape (n : string) : model := Model V10 [] [(ex_id n, Shape (ex_id n) [] (KSimple SString))].
Theorem C65_hash_refuted :
  ~ forall (H H' : Hasher) a b, @model_ok H a -> @model_ok H b -> @model_ok H' a -> @model_ok H' b ->
      @model_eqb H a b = @model_eqb H' a b.
Proof.
  intros F. assert (O : forall (H : Hasher) n, @model_ok H (one_shape n)) by (intros H n; solve_model_ok one_shape).
  specialize (F zero_hasher byte_hasher (one_shape "Foo") (one_shape "foo") (O _ _) (O _ _) (O _ _) (O _ _)). vm_compute in F. discriminate.
Qed.

Example C65_ex :
  @model_maps zero_hasher motd /\ @model_maps zero_hasher motd_backwards
  /\ motd <> motd_backwards /\ @model_eqb zero_hasher motd motd_backwards = true
  /\ ~ model_nan motd
  /\ @model_maps zero_hasher nan_doc /\ model_nan nan_doc
  /\ value_eqb (VNumber (NFloat 0)) (VNumber (NFloat 9223372036854775808)) = true.
Proof.
  assert (G : forall m, @model_ok zero_hasher m -> forallb (fun e => forallb (fun x => match ms_traits x with [] => true | _ => false end) (members_in (ts_body (snd e)))) (m_shapes m) = true ->
                @model_maps zero_hasher m).
  { intros m ((_ & D1 & D2) & S & V) T. rewrite Forall_forall in S, V. split; [exact D2|]. split; [exact D1|]. split; [intros k v I; exact (V _ I)|].
    intros k s I. destruct (S _ I) as [[T1 T2] B]. cbn in *. split; [split; [exact T1|]|split; [exact B|]].
    - intros t v J. rewrite Forall_forall in T2. exact (proj2 (T2 _ J)).
    - intros x J. rewrite forallb_forall in T. specialize (T _ I). cbn in T. rewrite forallb_forall in T. specialize (T _ J).
      destruct (ms_traits x); [|discriminate]. split; [exact Logic.I|intros t v []]. }
  assert (O1 : @model_maps zero_hasher motd).
  { apply G; [solve_model_ok motd|vm_compute; reflexivity]. }
  assert (O2 : @model_maps zero_hasher motd_backwards).
  { apply G; [solve_model_ok motd_backwards|vm_compute; reflexivity]. }
  assert (O3 : @model_maps zero_hasher nan_doc) by (apply G; [solve_model_ok nan_doc|reflexivity]).
  split; [exact O1|]. split; [exact O2|]. split; [intros C; vm_compute in C; discriminate|].
  split; [vm_compute; reflexivity|]. split; [apply (proj2 (proj2 C65_reflexive) zero_hasher motd O1); vm_compute; reflexivity|].
  split; [exact O3|]. split; [|vm_compute; reflexivity].
  left. exists (lit "x"), (VArray [VNumber (NFloat 9221120237041090560)]). split; [left; reflexivity|].
  eapply hn_array; [left; reflexivity|]. constructor. vm_compute. reflexivity.
Qed.
Print Assumptions C65_decides.
Print Assumptions C65_symmetric.
Print Assumptions C65_transitive.
Print Assumptions C65_reflexive.
Print Assumptions C65_observed.
Print Assumptions C65_reflexive_refuted.
Print Assumptions C65_hash_refuted.
