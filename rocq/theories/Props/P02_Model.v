(** C08-C16: the semantic model and merging (atelier-core/src/model/mod.rs, shapes/*.rs). *)
From Verif.Model Require Import SemModel.
From Verif.Spec Require Import ModelSpec Witness.
From Verif.Proofs Require Import HashMapFacts ValueFacts ShapeFacts ModelFacts MergeFacts.

(** The example models are well formed. *)
Lemma motd_ok : @model_ok zero_hasher motd.
Proof. solve_model_ok motd. Qed.
Lemma motd2_ok : @model_ok zero_hasher motd2.
Proof. solve_model_ok motd2. Qed.

(* ---------------------------------------------------------------- C05 *)
(** Looking up an id finds what is stored under a key that is == and has the same hash, and nothing
    else; in particular the very same text is always found, and an id of different case only if the
    hash function happens not to tell the two texts apart. *)
Theorem C05_lookup :
  forall (H : Hasher) (m : model) (id : shape_id) (s : shape),
    keys_ok m ->
    (model_shape m id = Some s <-> In (ts_id s, s) (m_shapes m) /\ same_id (ts_id s) id /\ hash_sid (ts_id s) = hash_sid id).
Proof.
  intros H m id s K. split.
  - intros G. apply model_shape_Some_In in G as [I E]; [|exact K]. split; [exact I|].
    unfold sid_key_eqb in E. apply andb_true_iff in E as [E1 E2].
    first [apply Z.eqb_eq in E1; apply sid_eqb_same in E2; auto|apply Z.eqb_eq in E2; apply sid_eqb_same in E1; auto].
  - intros (I & S & Hs). rewrite <- (model_shape_cong m (ts_id s) id).
    + apply model_shape_In; [apply K|exact I].
    + apply sid_eqb_same in S. unfold sid_key_eqb. rewrite Hs, Z.eqb_refl, S. reflexivity.
Qed.
Print Assumptions C05_lookup.
(** A definition with another spelling of the id is missed by every hash function that tells the
    spellings apart. *)
Example C05_ex :
  @keys_ok byte_hasher motd
  /\ @model_shape byte_hasher motd (ex_id "Date") = Some motd_date
  /\ @model_shape byte_hasher motd (ex_id "date") = None
  /\ @model_shape zero_hasher motd (ex_id "date") = Some motd_date.
Proof.
  assert (O : @model_ok byte_hasher motd) by (solve_model_ok motd).
  split; [apply O|]. vm_compute. repeat split.
Qed.

(* ---------------------------------------------------------------- C08 *)
Definition C08_keys (H : Hasher) (v : version) (ops : list model_op) : Prop :=
  let m := run_ops ops (model_new v) in
  (* every shape is stored under its own id and found there; only unresolved shapes have member ids *)
  (forall k s, In (k, s) (m_shapes m) ->
     k = ts_id s /\ model_shape m (ts_id s) = Some s /\ (sid_member (ts_id s) <> None -> ts_body s = KUnresolved))
  (* no id and no metadata key occurs twice *)
  /\ NoDup (hm_keys (m_shapes m)) /\ NoDup (hm_keys (m_metadata m))
  (* ids that are == are never stored twice, if == implies equal hashes *)
  /\ (hash_respects_eq -> ForallOrdPairs (fun a b => ~ same_id a b) (hm_keys (m_shapes m))).

Lemma distinct_NoDup {K V} keq (EQ : equivb keq) (m : list (K * V)) : distinct keq m -> NoDup (hm_keys m).
Proof.
  induction m as [|[k v] m IH]; cbn; [constructor|]. intros [D1 D2]. constructor; [|auto].
  intros HI. apply in_map_iff in HI as ([k' v'] & E & HI). cbn in E. subst k'.
  specialize (D1 _ _ HI). rewrite (eqv_refl _ EQ) in D1. discriminate.
Qed.

Theorem C08_key_invariant : forall (H : Hasher) (v : version) (ops : list model_op), C08_keys H v ops.
Proof.
  intros H v ops. unfold C08_keys. pose proof (run_ops_keys_ok ops _ (model_new_keys_ok v)) as (K1 & K2 & K3).
  cbv zeta. split; [|split; [|split]].
  - intros k s HI. destruct (K1 _ _ HI) as [-> M]. split; [reflexivity|]. split; [|assumption]. apply model_shape_In; assumption.
  - exact (distinct_NoDup _ sid_key_equiv _ K2).
  - exact (distinct_NoDup _ str_eqb_equiv _ K3).
  - intros R. apply distinct_fst in K2. revert K2. apply ForallOrdPairs_ind; [constructor|].
    intros a l F _ IHF. constructor; [|exact IHF]. revert F. apply Forall_impl. intros b N S.
    unfold sid_key_eqb in N. apply same_id_sym in S. rewrite (R _ _ S), Z.eqb_refl in N. apply sid_eqb_same in S. rewrite S in N. discriminate.
Qed.
Print Assumptions C08_key_invariant.

(** Without that premise, which the code's [Hash] does not satisfy (C05), == ids can be stored twice. *)
Theorem C08_equal_keys_refuted :
  exists (H : Hasher) (ops : list model_op) (a b : shape_id),
    NoDup [a; b] /\ sid_eqb a b = true
    /\ incl [a; b] (hm_keys (m_shapes (run_ops ops (model_new V10)))).
Proof.
  exists byte_hasher, [OpAddShape (Shape (SID "n" "Foo" None) [] (KSimple SString));
                       OpAddShape (Shape (SID "n" "foo" None) [] (KSimple SInteger))],
    (SID "n" "Foo" None), (SID "n" "foo" None).
  split; [repeat constructor; cbn; [intros [E|[]]; discriminate|tauto]|]. split; [reflexivity|].
  vm_compute. tauto.
Qed.
Print Assumptions C08_equal_keys_refuted.

Example C08_ex : @hash_respects_eq zero_hasher
  /\ length (m_shapes (@run_ops zero_hasher [OpMerge motd; OpMerge motd2; OpRemoveShape (ex_id "Tags");
                                           OpAddShape (Shape (ex_id "Date") [] (KSimple SBlob))] (model_new V10))) = 8.
Proof. split; [intros a b _; reflexivity|vm_compute; reflexivity]. Qed.

(* ---------------------------------------------------------------- C09 *)
(** Nothing else is touched, whatever the outcome. *)
Theorem C09_other_entries_unchanged :
  forall (H : Hasher) (m : model) (s : shape) (m' : model) (r : result unit),
    add_shape m s = (m', r) ->
    m_version m' = m_version m /\ m_metadata m' = m_metadata m
    /\ (forall id, sid_key_eqb (ts_id s) id = false -> model_shape m' id = model_shape m id).
Proof.
  intros H m s m' r E. pose proof (add_shape_version m s). pose proof (add_shape_metadata m s).
  pose proof (add_shape_frame m s). rewrite E in *. auto.
Qed.
Print Assumptions C09_other_entries_unchanged.

(** A fresh id: exactly the given shape is stored (a member id only for unresolved shapes). *)
Theorem C09_fresh :
  forall (H : Hasher) (m : model) (s : shape),
    model_shape m (ts_id s) = None ->
    ((sid_member (ts_id s) = None \/ ts_body s = KUnresolved) ->
       exists m', add_shape m s = (m', Ok tt) /\ model_shape m' (ts_id s) = Some s)
    /\ (sid_member (ts_id s) <> None -> ts_body s <> KUnresolved ->
       add_shape m s = (m, Err (EShapeIDExpected (ts_id s)))).
Proof.
  intros H m s F. split.
  - intros W. destruct (add_shape_fresh m s F W) as [R G]. destruct (add_shape m s) as [m' r]. cbn in *. subst. eauto.
  - intros M U. destruct (add_shape m s) as [m' r] eqn:E. pose proof (add_shape_cases m s) as C. rewrite E in C. cbn in C.
    destruct C; try congruence. destruct H0; congruence.
Qed.
Print Assumptions C09_fresh.

(** An existing id, whatever the outcome: a resolved body and the id stay as they were; on any
    error other than a trait conflict and on a panic the model is unchanged. *)
Theorem C09_existing_body_never_replaced :
  forall (H : Hasher) (m : model) (s e : shape) (m' : model) (r : result unit),
    model_shape m (ts_id s) = Some e -> add_shape m s = (m', r) ->
    exists e', model_shape m' (ts_id s) = Some e' /\ ts_id e' = ts_id e
               /\ (ts_body e <> KUnresolved -> ts_body e' = ts_body e)
               /\ (ts_body e' = ts_body e \/ ts_body e' = ts_body s)
               /\ (r <> Ok tt -> (forall t, r <> Err (EMergeTraitConflict t)) -> (forall t, r <> Err (EShapeIDExpected t)) -> m' = m).
Proof.
  intros H m s e m' r F E. destruct (add_shape_existing m s e F) as (e' & G & I1 & B1 & B2).
  pose proof (add_shape_cases m s) as C. rewrite E in *. cbn in *. exists e'. do 4 (split; [assumption|]).
  intros NO NT NS. destruct C as [M U|W' F'|e0 W' F' N1 N2 Q|e0 W' F' N1 N2 Q|e0 ts r W' F' C A]; try reflexivity; try congruence.
  exfalso. clear - A NO NT NS. revert A. generalize (ts_traits e0). induction (ts_traits s) as [|[t v] l IH]; intros l0 A; cbn in A.
  - injection A as <- <-. congruence.
  - unfold apply_with_value in A. destruct (sid_is_member t); [injection A as <- <-; eapply NS; reflexivity|].
    destruct (trait_named t l0) as [o|]; [|eauto].
    destruct (merge_traits_err t o v) as [[c Em]|Em]; rewrite Em in A; [eauto|injection A as <- <-; eapply NT; reflexivity].
Qed.
Print Assumptions C09_existing_body_never_replaced.

(** On success the entry is the merge of the two shapes: the body is the resolved one, which agrees
    with the new one; the traits are combined. *)
Theorem C09_existing_merged :
  forall (H : Hasher) (m : model) (s e m'shape : shape) (m' : model),
    model_ok m -> shape_ok s -> model_shape m (ts_id s) = Some e ->
    add_shape m s = (m', Ok tt) -> model_shape m' (ts_id s) = Some m'shape ->
    merged_shape e s m'shape /\ bodies_compatible (ts_body e) (ts_body s).
Proof.
  intros H m s e x m' W Ws F E G. destruct (add_shape_ok m s e) as (B & e' & G' & M); auto.
  - eapply model_shape_ok; eauto.
  - apply W.
  - rewrite E. reflexivity.
  - rewrite E in G'. cbn in G'. assert (x = e') by congruence. subst. auto.
Qed.
Print Assumptions C09_existing_merged.

(** It succeeds exactly when the two shapes are compatible, and reports a shape conflict (leaving
    the model alone) exactly when both are resolved and differ in structure - unless it panics (C15). *)
Theorem C09_conflict_exact :
  forall (H : Hasher) (m : model) (s e : shape),
    model_ok m -> shape_ok s -> model_shape m (ts_id s) = Some e ->
    (sid_member (ts_id s) = None \/ ts_body s = KUnresolved) ->
    (snd (add_shape m s) = Ok tt <-> shapes_compatible e s)
    /\ (snd (add_shape m s) <> Panic ->
        (add_shape m s = (m, Err (EMergeShapeConflict (ts_id e))) <-> ~ bodies_compatible (ts_body e) (ts_body s))).
Proof.
  intros H m s e W Ws F M. assert (We := model_shape_ok _ _ _ W F). split; [apply add_shape_ok_iff; auto; apply W|].
  intros NP. assert (Sid : same_id (ts_id e) (ts_id s)).
  { apply model_shape_Some_In in F as [_ E]; [|apply W]. apply sid_eqb_same, sid_key_eqb_eq, E. }
  assert (Sp := equal_without_traits_true e s (proj2 We) (proj2 Ws) Sid).
  destruct (add_shape m s) as [m' r] eqn:E. pose proof (add_shape_cases m s) as C. rewrite E in C. cbn in C, NP.
  unfold bodies_compatible. destruct C as [M' U|W' F'|e0 W' F' N1 N2 Q|e0 W' F' N1 N2 Q|e0 ts r W' F' C A];
      try (destruct M; congruence); try congruence; try (assert (e0 = e) by congruence; subst e0).
  - split; [intros _ [B|[B|B]]; try congruence; apply Sp in B; congruence|reflexivity].
  - split.
    + intros EQ. injection EQ as _ ->. exfalso. clear - A. revert A. generalize (ts_traits e).
      induction (ts_traits s) as [|[t v] l IH]; intros l0 A; cbn in A; [discriminate|].
      unfold apply_with_value in A. destruct (sid_is_member t); [discriminate|].
      destruct (trait_named t l0) as [o|]; [|eauto].
      destruct (merge_traits_err t o v) as [[c Em]|Em]; rewrite Em in A; [eauto|discriminate].
    + intros N. exfalso. apply N. destruct C as [C|[C|C]]; auto. right; right. apply Sp, C.
Qed.
Print Assumptions C09_conflict_exact.

Example C09_ex :
  let a := @add_shape zero_hasher in
  @model_shape zero_hasher motd (ex_id "Date") = Some motd_date
  /\ snd (a motd (Shape (ex_id "Date") [(api_id "sensitive", None)] (KSimple SString))) = Ok tt
  /\ snd (a motd (Shape (ex_id "Date") [] (KSimple SBlob))) = Err (EMergeShapeConflict (ex_id "Date"))
  /\ snd (a motd (Shape (ex_id "Date") [(api_id "pattern", Some (VString "x"))] (KSimple SString)))
     = Err (EMergeTraitConflict (api_id "pattern"))
  /\ @model_shape zero_hasher (fst (a motd (Shape (api_id "String") [] (KSimple SString)))) (api_id "String")
     = Some (Shape (api_id "String") [] (KSimple SString)).
Proof. vm_compute. repeat split. Qed.

(* ---------------------------------------------------------------- C10 *)
Theorem C10_trait_conflict_resolution :
  forall (H : Hasher) (ts : traits) (id : shape_id) (v : option value),
    traits_ok ts -> sid_member id = None -> match v with Some x => value_ok x | None => True end ->
    match trait_named id ts with
    | None => exists ts', apply_with_value ts id v = (ts', Ok tt) /\ trait_named id ts' = Some v
    | Some old =>
        (exists c ts', combine_trait old v c /\ apply_with_value ts id v = (ts', Ok tt) /\ trait_named id ts' = Some c)
        \/ ((forall c, ~ combine_trait old v c) /\ apply_with_value ts id v = (ts, Err (EMergeTraitConflict id)))
    end.
Proof.
  intros H ts id v Wt M Wv. assert (M' := M). apply sid_is_member_false in M.
  pose proof (trait_ok ts id) as TO. unfold apply_with_value. rewrite M.
  destruct (trait_named id ts) as [old|] eqn:G.
  - specialize (TO _ Wt eq_refl). destruct (merge_traits_err id old v) as [[c Em]|Em]; rewrite Em.
    + left. exists c. eexists. apply (merge_traits_spec id) in Em; auto. split; [exact Em|]. split; [reflexivity|].
      unfold trait_named. rewrite hm_get_insert, (eqv_refl _ sid_key_equiv) by auto with equivb. reflexivity.
    + right. split; [|reflexivity]. intros c C. apply (merge_traits_spec id) in C; auto. congruence.
  - eexists. split; [reflexivity|]. unfold trait_named.
    rewrite hm_get_insert, (eqv_refl _ sid_key_equiv) by auto with equivb. reflexivity.
Qed.
Print Assumptions C10_trait_conflict_resolution.

Theorem C10_other_traits_unchanged :
  forall (H : Hasher) (ts : traits) (id : shape_id) (v : option value) ts' r,
    apply_with_value ts id v = (ts', r) ->
    (forall t, sid_key_eqb id t = false -> trait_named t ts' = trait_named t ts)
    /\ (r <> Ok tt -> ts' = ts)
    /\ (sid_member id <> None -> r = Err (EShapeIDExpected id))
    /\ (distinct sid_key_eqb ts -> distinct sid_key_eqb ts').
Proof.
  intros H ts id v ts' r E. split; [intros t N; eapply apply_frame; eauto|]. split; [|split].
  - unfold apply_with_value in E. destruct (sid_is_member id); [injection E as <- <-; reflexivity|].
    destruct (trait_named id ts); [destruct (merge_traits _ _ _)|]; injection E as <- <-; congruence.
  - intros M. apply sid_is_member_spec in M. unfold apply_with_value in E. rewrite M in E. injection E as <- <-. reflexivity.
  - intros D. pose proof (apply_distinct ts id v D) as D'. rewrite E in D'. exact D'.
Qed.
Print Assumptions C10_other_traits_unchanged.

(** The specification is a function: at most one way to combine two values. *)
Theorem C10_combination_is_unique :
  forall a b c d, combine_trait a b c -> combine_trait a b d -> c = d.
Proof.
  intros a b c d C D. destruct C as [|a b c C]; inversion D as [|? ? ? D']; subst; [reflexivity|]. f_equal.
  destruct C; inversion D'; subst; try reflexivity; exfalso;
    match goal with h : ~ (is_array_value _ /\ is_array_value _) |- _ => apply h; unfold is_array_value; eauto end.
Qed.
Print Assumptions C10_combination_is_unique.

Example C10_ex :
  let tags := api_id "tags" in let ts := [(tags, Some (VArray [VString "a"]))] in
  @apply_with_value zero_hasher ts tags (Some (VArray [VString "b"])) = ([(tags, Some (VArray [VString "a"; VString "b"]))], Ok tt)
  /\ @apply_with_value zero_hasher ts tags (Some (VString "b")) = (ts, Err (EMergeTraitConflict tags)).
Proof. vm_compute. split; reflexivity. Qed.

(* ---------------------------------------------------------------- C11 *)
Theorem C11_metadata_conflict_resolution :
  forall (H : Hasher) (m : model) (k : str) (v : value),
    model_ok m -> value_ok v ->
    match metadata_value m k with
    | None => exists m', add_metadata m k v = (m', Ok None) /\ metadata_value m' k = Some v
    | Some old =>
        (exists c m' r, combine_value old v c /\ add_metadata m k v = (m', Ok r) /\ metadata_value m' k = Some c)
        \/ ((forall c, ~ combine_value old v c) /\ add_metadata m k v = (m, Err (EMergeMetadataConflict k)))
    end.
Proof.
  intros H m k v W Wv. pose proof (metadata_ok m k) as MO. destruct (metadata_value m k) as [old|] eqn:G.
  - specialize (MO _ W eq_refl). destruct (add_metadata_existing m k v old MO Wv G) as [(c & r & C & R & G')|]; [left|right; assumption].
    destruct (add_metadata m k v) as [m' r']. cbn in *. subst. exists c, m', r. auto.
  - destruct (add_metadata_fresh m k v G) as [R G']. destruct (add_metadata m k v) as [m' r']. cbn in *. subst. eauto.
Qed.
Print Assumptions C11_metadata_conflict_resolution.

Theorem C11_other_keys_unchanged :
  forall (H : Hasher) (m : model) (k : str) (v : value) m' r,
    add_metadata m k v = (m', r) ->
    m_shapes m' = m_shapes m /\ m_version m' = m_version m
    /\ (forall k', k' <> k -> metadata_value m' k' = metadata_value m k').
Proof.
  intros H m k v m' r E. pose proof (add_metadata_shapes m k v) as [S V]. pose proof (add_metadata_frame m k v) as F.
  rewrite E in *. cbn in *. repeat split; auto.
Qed.
Print Assumptions C11_other_keys_unchanged.

Example C11_ex :
  snd (add_metadata motd (lit "domain") (VString "x")) = Err (EMergeMetadataConflict (lit "domain"))
  /\ snd (add_metadata motd (lit "domain") (VString "motd")) = Ok None.
Proof. vm_compute. split; reflexivity. Qed.

(* ---------------------------------------------------------------- C12 *)
Theorem C12_merge_keeps_everything :
  forall (H : Hasher) (a b m : model),
    model_ok a -> model_ok b -> merge a b = (m, Ok tt) ->
    (* exactly the ids and keys of either model *)
    (forall id, model_shape m id <> None <-> (model_shape a id <> None \/ model_shape b id <> None))
    /\ (forall k, metadata_value m k <> None <-> (metadata_value a k <> None \/ metadata_value b k <> None))
    (* what only one model has is unchanged *)
    /\ (forall id s, model_shape a id = Some s -> model_shape b id = None -> model_shape m id = Some s)
    /\ (forall id s, model_shape a id = None -> model_shape b id = Some s -> model_shape m id = Some s)
    (* what both have is merged, and both were structurally the same (or unresolved) *)
    /\ (forall id x y, model_shape a id = Some x -> model_shape b id = Some y ->
          exists z, model_shape m id = Some z /\ merged_shape x y z
                    /\ (ts_body x = KUnresolved \/ ts_body y = KUnresolved \/ same_structure (ts_body x) (ts_body y)))
    /\ (forall k, match metadata_value a k, metadata_value b k with
                  | Some x, Some y => exists z, metadata_value m k = Some z /\ combine_value x y z
                  | Some x, None => metadata_value m k = Some x
                  | None, y => metadata_value m k = y
                  end).
Proof.
  intros H a b m Wa Wb E. destruct (merge_spec a b Wa Wb) as [I S]. rewrite E in *. cbn in I, S.
  destruct (S eq_refl) as (V & M & Sh). destruct I as [I _]. specialize (I eq_refl). destruct I as [_ IC].
  split; [|split; [|split; [|split; [|split]]]].
  - intros id. specialize (Sh id). cbn beta in Sh. destruct (model_shape a id) eqn:Ea, (model_shape b id) eqn:Eb.
    + destruct Sh as (c & -> & _). split; [left|]; discriminate.
    + rewrite Sh. split; [left|]; discriminate.
    + rewrite Sh. split; [right|]; discriminate.
    + rewrite Sh. split; [congruence|intros [C|C]; congruence].
  - intros k. specialize (M k). cbn beta in M. destruct (metadata_value a k) eqn:Ea, (metadata_value b k) eqn:Eb.
    + destruct M as (c & -> & _). split; [left|]; discriminate.
    + rewrite M. split; [left|]; discriminate.
    + rewrite M. split; [right|]; discriminate.
    + rewrite M. split; [congruence|intros [C|C]; congruence].
  - intros id s Ea Eb. specialize (Sh id). rewrite Ea, Eb in Sh. exact Sh.
  - intros id s Ea Eb. specialize (Sh id). rewrite Ea, Eb in Sh. exact Sh.
  - intros id x y Ea Eb. specialize (Sh id). rewrite Ea, Eb in Sh. destruct Sh as (z & G & Mz). exists z.
    split; [assumption|]. split; [assumption|]. apply (IC id x y Ea Eb).
  - exact M.
Qed.
Print Assumptions C12_merge_keeps_everything.

(** Merging succeeds exactly on compatible models. *)
Theorem C12_merge_succeeds_exactly_when_compatible :
  forall (H : Hasher) (a b : model),
    model_ok a -> model_ok b -> (snd (merge a b) = Ok tt <-> models_compatible a b).
Proof. intros H a b Wa Wb. apply merge_spec; assumption. Qed.
Print Assumptions C12_merge_succeeds_exactly_when_compatible.

Example C12_ex : @model_ok zero_hasher motd /\ @model_ok zero_hasher motd2
  /\ exists m, @merge zero_hasher motd motd2 = (m, Ok tt) /\ length (m_shapes m) = 9 /\ length (m_metadata m) = 3.
Proof. split; [exact motd_ok|]. split; [exact motd2_ok|]. eexists. vm_compute. split; [reflexivity|]. split; reflexivity. Qed.

(* ---------------------------------------------------------------- C13 *)
Definition C13_failing_merge_leaves_model_unchanged : Prop :=
  forall (H : Hasher) (a b : model), model_ok a -> model_ok b ->
    snd (merge a b) <> Ok tt -> fst (merge a b) = a.

(** Two files of one service whose last shapes clash: the metadata and shapes merged first stay. *)
Definition c13_other : model :=
  Model V10 [(lit "build", VBoolean true)]
    (map (fun s => (ts_id s, s)) [Shape (ex_id "Extra") [] (KSimple SBlob); Shape (ex_id "Date") [] (KSimple SBlob)]).
Lemma c13_ok : @model_ok zero_hasher c13_other.
Proof. solve_model_ok c13_other. Qed.
Theorem C13_failing_merge_leaves_model_unchanged_refuted :
  ~ C13_failing_merge_leaves_model_unchanged
  /\ snd (@merge zero_hasher motd c13_other) = Err (EMergeShapeConflict (ex_id "Date"))
  /\ @model_shape zero_hasher motd (ex_id "Extra") = None
  /\ @model_shape zero_hasher (fst (@merge zero_hasher motd c13_other)) (ex_id "Extra") <> None
  /\ metadata_value motd (lit "build") = None
  /\ metadata_value (fst (@merge zero_hasher motd c13_other)) (lit "build") = Some (VBoolean true).
Proof.
  split.
  - intros C. specialize (C zero_hasher motd c13_other motd_ok c13_ok).
    assert (N : snd (@merge zero_hasher motd c13_other) <> Ok tt) by (vm_compute; discriminate).
    specialize (C N). apply (f_equal (fun m => length (m_shapes m))) in C. vm_compute in C. discriminate.
  - vm_compute. repeat split; discriminate.
Qed.
Print Assumptions C13_failing_merge_leaves_model_unchanged_refuted.

(** What does hold, for every outcome (including a panic): nothing is lost from the receiver. *)
Theorem C13_failing_merge_keeps_receiver :
  forall (H : Hasher) (a b m : model) (r : result unit),
    merge a b = (m, r) ->
    (forall id e, model_shape a id = Some e ->
       exists e', model_shape m id = Some e' /\ ts_id e' = ts_id e /\ (ts_body e <> KUnresolved -> ts_body e' = ts_body e))
    /\ (forall k, metadata_value a k <> None -> metadata_value m k <> None).
Proof. intros H a b m r E. pose proof (merge_kept a b) as K. rewrite E in K. exact K. Qed.
Print Assumptions C13_failing_merge_keeps_receiver.

(** And every entry is either as it was or has taken over, or is combined with, the entry of the
    other model; only the traits of a shape may be merged in part. So at worst the receiver is
    somewhere between its old state and the state a successful merge would have given it. *)
Theorem C13_failing_merge_leaves_part_of_the_merge :
  forall (H : Hasher) (a b m : model) (r : result unit),
    model_ok a -> model_ok b -> merge a b = (m, r) ->
    m_version m = m_version a
    /\ (forall id, taken partly_merged (model_shape a id) (model_shape b id) (model_shape m id))
    /\ (forall k, taken combine_value (metadata_value a k) (metadata_value b k) (metadata_value m k)).
Proof. intros H a b m r Wa Wb E. pose proof (merge_taken a b Wa Wb) as T. rewrite E in T. exact T. Qed.
Print Assumptions C13_failing_merge_leaves_part_of_the_merge.

Example C13_ex : @model_ok zero_hasher motd /\ @model_ok zero_hasher c13_other
  /\ snd (@merge zero_hasher motd c13_other) <> Ok tt.
Proof. split; [exact motd_ok|]. split; [exact c13_ok|vm_compute; discriminate]. Qed.

(* ---------------------------------------------------------------- C14 *)
Theorem C14_merge_idempotent :
  forall (H : Hasher) (m : model), model_ok m -> stable_model m -> merge m m = (m, Ok tt).
Proof. intros H m W S. apply merge_self; assumption. Qed.
Print Assumptions C14_merge_idempotent.

Theorem C14_merge_order_independent :
  forall (H : Hasher) (a b : model),
    model_ok a -> model_ok b ->
    (snd (merge a b) = Ok tt <-> snd (merge b a) = Ok tt)
    /\ (no_array_clash a b -> snd (merge a b) = Ok tt -> similar_model (fst (merge a b)) (fst (merge b a))).
Proof. intros H a b. apply merge_commutes. Qed.
Print Assumptions C14_merge_order_independent.

Definition C14_idempotent : Prop :=
  forall (H : Hasher) (m : model), model_ok m -> exists m', merge m m = (m', Ok tt) /\ model_eqb m' m = true.
Definition C14_commutative : Prop :=
  forall (H : Hasher) (a b m1 m2 : model), model_ok a -> model_ok b ->
    merge a b = (m1, Ok tt) -> merge b a = (m2, Ok tt) -> model_eqb m1 m2 = true.

Definition tagged (l : list value) : model := Model V10 [(lit "tags", VArray l)] [].
Lemma tagged_ok l : Forall value_ok l -> @model_ok zero_hasher (tagged l).
Proof.
  intros W. split; [split; [cbn; tauto|split; [exact I|cbn; split; [intros ? ? []|exact I]]]|].
  split; [constructor|]. constructor; [|constructor]. cbn. apply vo_array, W.
Qed.
Lemma tagged_bool_ok b : @model_ok zero_hasher (tagged [VBoolean b]).
Proof. apply tagged_ok. repeat constructor. Qed.
Definition member_traits (ts : traits) : model :=
  Model V10 [] [(ex_id "S", Shape (ex_id "S") [] (KStructure [(lit "a", MS "a" ts (ex_id "T"))]))].
Lemma member_traits_ok ts : @model_ok zero_hasher (member_traits ts).
Proof.
  split; [split; [|split; [|exact I]]|split; [|constructor]].
  - intros k s HI. cbn in HI. solve_in. split; [reflexivity|intros C; exfalso; apply C; reflexivity].
  - cbn. split; [intros ? ? []|exact I].
  - constructor; [|constructor]. split; [split; [exact I|constructor]|]. cbn. split; [intros ? ? []|exact I].
Qed.

Theorem C14_refuted :
  (* arrays grow when a model is merged with itself *)
  ~ C14_idempotent
  (* a NaN in the metadata makes a model conflict with its own copy *)
  /\ (exists v, value_ok v /\ snd (@merge zero_hasher (Model V10 [(lit "k", v)] []) (Model V10 [(lit "k", v)] []))
                = Err (EMergeMetadataConflict (lit "k")))
  (* arrays depend on the order *)
  /\ ~ C14_commutative
  (* and so do the traits of members: those of the second operand are dropped *)
  /\ (exists a b, @model_ok zero_hasher a /\ @model_ok zero_hasher b /\ @stable_model a /\ @stable_model b
        /\ snd (@merge zero_hasher a b) = Ok tt /\ snd (@merge zero_hasher b a) = Ok tt
        /\ @model_eqb zero_hasher (fst (@merge zero_hasher a b)) (fst (@merge zero_hasher b a)) = false).
Proof.
  split; [|split; [|split]].
  - intros C. destruct (C zero_hasher (tagged [VBoolean true]) (tagged_bool_ok _)) as (m' & E & Q).
    vm_compute in E. injection E as <-. vm_compute in Q. discriminate.
  - exists (VNumber (NFloat 0x7FF8000000000000)). split; [constructor|vm_compute; reflexivity].
  - intros C. specialize (C zero_hasher (tagged [VBoolean true]) (tagged [VBoolean false]) _ _
      (tagged_bool_ok _) (tagged_bool_ok _) eq_refl eq_refl).
    vm_compute in C. discriminate.
  - exists (member_traits [(api_id "required", None)]), (member_traits []).
    split; [apply member_traits_ok|]. split; [apply member_traits_ok|].
    split; [split; repeat constructor|]. split; [split; repeat constructor|]. vm_compute. repeat split.
Qed.
Print Assumptions C14_refuted.

Example C14_ex : @model_ok zero_hasher motd /\ stable_model motd
  /\ @no_array_clash zero_hasher motd motd2 /\ snd (@merge zero_hasher motd motd2) = Ok tt.
Proof.
  split; [exact motd_ok|]. split; [|split; [|vm_compute; reflexivity]].
  - assert (M : forall s, merge_stable (VString s)) by (intros s; split; [constructor|discriminate]).
    assert (N : merge_stable (VObject [(lit "team", VNumber (NInteger 7))])).
    { split; [|discriminate]. apply same_value_refl. repeat constructor. }
    split; unfold motd; cbn [m_metadata m_shapes map]; repeat (first [apply M|apply N|exact I|constructor]).
  - split.
    + intros k x y G1 G2. apply hm_get_Some_In in G1 as (k1 & I1 & _). cbn [motd m_metadata] in I1.
      intros [[l A] _]. solve_in; discriminate.
    + intros id s1 s2 t x y G1 G2 T1 T2 [[l A] _]. apply hm_get_Some_In in G1 as (k1 & I1 & _).
      unfold motd in I1. cbn [m_shapes map] in I1. solve_in; apply hm_get_Some_In in T1 as (k2 & I2 & _); cbn in I2; solve_in;
        repeat match goal with h : (_, _) = _ |- _ => injection h as ? ? end; subst; discriminate.
Qed.

(* ---------------------------------------------------------------- C15 *)
Definition C15_merging_never_panics : Prop :=
  forall (H : Hasher) (a b : model), model_ok a -> model_ok b -> snd (merge a b) <> Panic.

Definition one_member (n : string) : model :=
  Model V10 [] [(ex_id "S", Shape (ex_id "S") [] (KStructure [ex_member n (ex_id "T")]))].
Lemma one_member_ok n : @model_ok zero_hasher (one_member n).
Proof.
  split; [split; [|split; [|exact I]]|split; [|constructor]].
  - intros k s HI. cbn in HI. solve_in. split; [reflexivity|intros C; exfalso; apply C; reflexivity].
  - cbn. split; [intros ? ? []|exact I].
  - constructor; [|constructor]. split; [split; [exact I|constructor]|]. cbn. split; [intros ? ? []|exact I].
Qed.
Theorem C15_merging_never_panics_refuted :
  ~ C15_merging_never_panics /\ snd (@merge zero_hasher (one_member "a") (one_member "b")) = Panic.
Proof.
  split; [|vm_compute; reflexivity].
  intros C. apply (C zero_hasher (one_member "a") (one_member "b")); auto using one_member_ok.
Qed.
Print Assumptions C15_merging_never_panics_refuted.

(** The only way to panic: both models define the same id as a structure (or union) with equally
    many members, and some member name of the first is missing in the second. *)
Theorem C15_merge_panics_only_on_different_member_names :
  forall (H : Hasher) (a b : model),
    model_ok b -> snd (merge a b) = Panic ->
    exists id e s, model_shape a id = Some e /\ model_shape b id = Some s /\ names_differ (ts_body e) (ts_body s).
Proof. intros H a b W P. apply merge_panic; auto. apply W. Qed.
Print Assumptions C15_merge_panics_only_on_different_member_names.

(** And when that is so for some pair, the outcome is never success (it is the panic or a conflict). *)
Theorem C15_different_member_names_never_merge :
  forall (H : Hasher) (a b : model) id e s,
    model_ok a -> model_ok b ->
    model_shape a id = Some e -> model_shape b id = Some s -> names_differ (ts_body e) (ts_body s) ->
    snd (merge a b) <> Ok tt.
Proof.
  intros H a b id e s Wa Wb Ga Gb N R. apply (proj1 (merge_spec a b Wa Wb)) in R. destruct R as [_ R].
  destruct (R id e s Ga Gb) as [[B|[B|B]] _]; try (rewrite B in N; try destruct N; destruct (ts_body e); exact N).
  unfold names_differ in N.
  destruct (ts_body e) as [| | | |l1|l1| | | |], (ts_body s) as [| | | |l2|l2| | | |]; try exact N;
    inversion B as [| | | |? ? S|? ? S| | | |]; clear B; destruct N as [_ (n & ms & I & G)];
    specialize (S n); rewrite G in S;
    (assert (Hn : su_member l1 n <> None) by (eapply hm_get_key; eauto with equivb));
    destruct (su_member l1 n); try congruence; exact S.
Qed.
Print Assumptions C15_different_member_names_never_merge.

Example C15_ex : @names_differ zero_hasher (KStructure [ex_member "a" (ex_id "T")]) (KStructure [ex_member "b" (ex_id "T")]).
Proof. split; [reflexivity|]. exists (lit "a"), (MS "a" [] (ex_id "T")). split; [left; reflexivity|vm_compute; reflexivity]. Qed.

(* ---------------------------------------------------------------- C16 *)
Definition C16_queries_tell_the_truth : Prop :=
  forall H : Hasher,
    (forall m id, has_shape m id = true <-> model_shape m id <> None)
    /\ (forall m k, has_metadata_value m k = true <-> metadata_value m k <> None)
    /\ (forall ms n, su_has_member ms n = true <-> su_member ms n <> None)
    /\ (forall r n, rs_has_identifier r n = true <-> rs_identifier r n <> None).

(** All four say the opposite, on every argument. *)
Theorem C16_queries_tell_the_truth_refuted :
  ~ C16_queries_tell_the_truth
  /\ forall H : Hasher,
    (forall m id, has_shape m id = true <-> model_shape m id = None)
    /\ (forall m k, has_metadata_value m k = true <-> metadata_value m k = None)
    /\ (forall ms n, su_has_member ms n = true <-> su_member ms n = None)
    /\ (forall r n, rs_has_identifier r n = true <-> rs_identifier r n = None).
Proof.
  split.
  - intros C. destruct (C zero_hasher) as (C1 & _). specialize (C1 (model_new V10) (ex_id "A")). destruct C1 as [C1 _].
    apply C1; reflexivity.
  - intros H. unfold has_shape, model_shape, has_metadata_value, metadata_value, su_has_member, su_member,
      rs_has_identifier, rs_identifier, hm_contains.
    split; [|split; [|split]]; intros m k; match goal with |- context [match ?x with _ => _ end] => destruct x end;
      cbn; split; congruence.
Qed.
Print Assumptions C16_queries_tell_the_truth_refuted.

(** The remaining queries do tell the truth. *)
Theorem C16_other_queries :
  forall H : Hasher,
    (forall s n, ts_has_member s n = true <-> ts_member s n <> None)
    /\ (forall id ts, has_trait id ts = true <-> trait_named id ts <> None)
    /\ (forall m, has_shapes m = true <-> exists k s, In (k, s) (m_shapes m))
    /\ (forall m, has_metadata m = true <-> exists k v, In (k, v) (m_metadata m)).
Proof.
  intros H. split; [|split; [|split]].
  - intros s n. unfold ts_has_member. destruct (ts_member s n); split; congruence.
  - intros id ts. unfold has_trait, trait_named, hm_contains. destruct (hm_get _ id ts); split; congruence.
  - intros m. unfold has_shapes. destruct (m_shapes m) as [|[k s] l]; split; try discriminate.
    + intros (k & s & []).
    + intros _. exists k, s. left; reflexivity.
    + reflexivity.
  - intros m. unfold has_metadata. destruct (m_metadata m) as [|[k s] l]; split; try discriminate.
    + intros (k & s & []).
    + intros _. exists k, s. left; reflexivity.
    + reflexivity.
Qed.
Print Assumptions C16_other_queries.
