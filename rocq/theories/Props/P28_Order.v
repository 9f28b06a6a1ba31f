(** C62: what a user is told about a model does not depend on the order its maps are iterated in. *)
From Verif.Model Require Import SemModel Actions Query.
From Verif.Spec Require Import ModelSpec ReorderSpec ActionsSpec Witness.
From Verif.Proofs Require Import BaseFacts IdentityFacts HashMapFacts ActionFacts ReorderFacts ReorderEquiv OrderFacts.
From Verif.Props Require Import P03_Actions P04_Lines.

(** Completeness, names and look-ups. Namespaces: provided none of them is mistaken for another one. *)
Theorem C62_names :
  forall (H : Hasher) (m1 m2 : model),
    keys_ok m1 -> reorder_model m1 m2 ->
    is_complete m1 = is_complete m2
    /\ Permutation (shape_names m1) (shape_names m2)
    /\ Permutation (unresolved_shape_names m1) (unresolved_shape_names m2)
    /\ (forall id, match model_shape m1 id, model_shape m2 id with
                   | Some s1, Some s2 => reorder_shape s1 s2
                   | None, None => True
                   | _, _ => False
                   end)
    /\ ((forall i j, In i (shape_names m1) -> In j (shape_names m1) -> ident_eqb (sid_ns i) (sid_ns j) = true ->
           hash_str (sid_ns i) = hash_str (sid_ns j) -> sid_ns i = sid_ns j) ->
        Permutation (namespaces m1) (namespaces m2)).
Proof.
  intros H m1 m2 K R. split; [apply is_complete_order, R|]. split; [apply shape_names_order, R|]. split; [apply unresolved_names_order, R|].
  split; [intros id; exact (model_shape_order m1 m2 id K R)|]. intros NC.
  pose proof (shape_names_order m1 m2 R) as P.
  destruct (C17_namespaces H m1) as (A1 & B1 & N1). destruct (C17_namespaces H m2) as (A2 & B2 & N2).
  assert (SN : forall (m : model) ns, (exists s, stored m s /\ ts_body s <> KUnresolved /\ sid_ns (ts_id s) = ns) <-> exists i, In i (shape_names m) /\ sid_ns i = ns).
  { intros m ns. split.
    - intros (s & S & U & E). exists (ts_id s). split; [|exact E]. apply (proj1 (C17_names_partition H m (ts_id s))). eauto.
    - intros (i & I & E). apply (proj1 (C17_names_partition H m i)) in I as (s & S & Ei & U). exists s. subst i. auto. }
  apply NoDup_Permutation; [exact N1|exact N2|]. intros ns. split; intros I.
  - apply A1 in I. apply SN in I as (i & I & E). assert (I2 := Permutation_in _ P I).
    destruct (proj1 (SN m2 ns)) as (j & _ & _); [apply SN; exists i; auto|].
    destruct (proj2 (SN m2 ns)) as (s & S & U & Es); [exists i; auto|].
    destruct (B2 s S U) as (ns' & In' & Eq & Hs). rewrite Es in Eq, Hs.
    destruct (proj1 (SN m2 ns')) as (j' & J & Ej); [apply A2, In'|].
    apply (Permutation_in _ (Permutation_sym P)) in J. rewrite <- E, <- Ej in Eq, Hs. apply NC in Eq; [|exact J|exact I|exact Hs].
    rewrite Ej, E in Eq. subst ns'. exact In'.
  - apply A2 in I. apply SN in I as (i & I & E). assert (I1 := Permutation_in _ (Permutation_sym P) I).
    destruct (proj2 (SN m1 ns)) as (s & S & U & Es); [exists i; auto|].
    destruct (B1 s S U) as (ns' & In' & Eq & Hs). rewrite Es in Eq, Hs.
    destruct (proj1 (SN m1 ns')) as (j' & J & Ej); [apply A1, In'|].
    rewrite <- E, <- Ej in Eq, Hs. apply NC in Eq; [|exact J|exact I1|exact Hs]. rewrite Ej, E in Eq. subst ns'. exact In'.
Qed.
Print Assumptions C62_names.

(** The standard validation reports the same issues, each as often, in some order. *)
Theorem C62_validation :
  forall (H : Hasher) (m1 m2 : model) (ff1 ff2 : bool),
    keys_ok m1 -> reorder_model m1 m2 ->
    exists l1 l2, standard_model_validation m1 ff1 = Ok l1 /\ standard_model_validation m2 ff2 = Ok l2 /\ Permutation l1 l2.
Proof.
  intros H m1 m2 ff1 ff2 K R. destruct (C20_standard_actions H (fun s => s) (fun s => s) (fun s => s) m1 ff1) as [E1 _].
  destruct (C20_standard_actions H (fun s => s) (fun s => s) (fun s => s) m2 ff2) as [E2 _].
  eexists; eexists; split; [exact E1|split; [exact E2|]]. cbn [nur_validate ctr_validate fst app].
  apply Permutation_app; [apply nur_order, R|apply ctr_order; assumption].
Qed.
Print Assumptions C62_validation.

(** So do the naming conventions. *)
Theorem C62_naming :
  forall (H : Hasher) (camel mixed : str -> str) (m1 m2 : model),
    reorder_model m1 m2 -> Permutation (fst (nc_check camel mixed m1 [])) (fst (nc_check camel mixed m2 [])).
Proof. intros H camel mixed m1 m2 R. cbn [nc_check fst app]. apply nc_order, R. Qed.
Print Assumptions C62_naming.

(** The unwelcome terms found are the same, as often, if no name is mistaken for another one (names
    differing in case only can be, if they hash alike) ... *)
Theorem C62_unwelcome :
  forall (H : Hasher) (snake : str -> str) (m1 m2 : model),
    reorder_model m1 m2 ->
    (forall s1 p1 n1 i1 s2 p2 n2 i2, stored m1 s1 -> linted p1 -> name_at s1 p1 n1 i1 ->
       stored m1 s2 -> linted p2 -> name_at s2 p2 n2 i2 ->
       ident_eqb n1 n2 = true -> hash_str n1 = hash_str n2 -> n1 = n2) ->
    let report m := map (fun i => (i_level i, i_reporter i, i_message i)) (fst (ut_check snake m [])) in
    Permutation (report m1) (report m2).
Proof.
  intros H snake m1 m2 R NC report.
  assert (E : forall m, report m = map (fun t => (Warning, ut_label, t)) (map i_message (fst (ut_check snake m [])))).
  { intros m. unfold report. rewrite map_map. apply map_ext_in. intros i I. rewrite ut_check_issues in I. cbn [fst app] in I.
    apply in_flat_map in I as (x & _ & I). unfold ActionFacts.report in I. apply in_map_iff in I as (w & <- & _). reflexivity. }
  rewrite !E. apply Permutation_map. rewrite !ut_check_issues. cbn [fst app]. rewrite !report_messages.
  apply Permutation_flat_map. apply (firsts_names snake snake snake); [|apply all_mentions_order, R].
  intros a b Ia Ib Eab. apply in_map_iff in Ia as ([a' i] & <- & Ia). apply in_map_iff in Ib as ([b' j] & <- & Ib). cbn [fst] in *.
  apply all_mentions_spec in Ia as (s1 & p1 & S1 & L1 & N1). apply all_mentions_spec in Ib as (s2 & p2 & S2 & L2 & N2).
  unfold ident_key_eqb in Eab. apply andb_true_iff in Eab as [Eab1 Eab2]. apply Z.eqb_eq in Eab1. eapply NC; [exact S1|exact L1|exact N1|exact S2|exact L2|exact N2|exact Eab2|exact Eab1].
Qed.
Print Assumptions C62_unwelcome.

(** ... but where they are reported does depend on it: a name is reported once, where it is met first. *)
Definition two_at (a b : shape_id) : model :=
  Model V10 [] (map (fun i => (i, Shape i [(api_id "sensitive", None)] (KSimple SString))) [a; b]).
Definition slave_id (n : string) : shape_id := SID "example.slave" n None.
Definition C62_unwelcome_loci : Prop :=
  forall (H : Hasher) (snake : str -> str) (m1 m2 : model),
    keys_ok m1 -> reorder_model m1 m2 ->
    Permutation (fst (ut_check snake m1 [])) (fst (ut_check snake m2 [])).
Theorem C62_unwelcome_loci_refuted : ~ C62_unwelcome_loci.
Proof.
  intros C. specialize (C byte_hasher (fun s => s) (two_at (slave_id "A") (slave_id "B")) (two_at (slave_id "B") (slave_id "A"))).
  assert (O : @model_ok byte_hasher (two_at (slave_id "A") (slave_id "B"))) by (solve_model_ok two_at).
  specialize (C (proj1 O)). assert (R : reorder_model (two_at (slave_id "A") (slave_id "B")) (two_at (slave_id "B") (slave_id "A"))).
  { split; [reflexivity|]. split; [exists []; split; constructor|]. eexists. split; [apply perm_swap|].
    repeat (constructor; [split; [reflexivity|apply P04_Lines.reorder_shape_refl]|]). constructor. }
  specialize (C R). vm_compute in C. apply Permutation_length_1 in C. discriminate.
Qed.
Print Assumptions C62_unwelcome_loci_refuted.

(** A query answers with the same shapes, each as often, or ends the same way. *)
Theorem C62_query :
  forall (H : Hasher) (sel : selector) (m1 m2 : model),
    keys_ok m1 -> reorder_model m1 m2 ->
    match query sel m1, query sel m2 with
    | Ok (PrShapes a), Ok (PrShapes b) => Permutation a b
    | Ok PrEmpty, Ok PrEmpty | Err _, Err _ | Panic, Panic => True
    | _, _ => False
    end.
Proof.
  intros H sel m1 m2 K R. pose proof (query_order m1 m2 K R sel) as S. destruct (query sel m1) as [x|e|], (query sel m2) as [y|e'|]; cbn in S; try contradiction; try exact I.
  destruct S; [exact I|assumption].
Qed.
Print Assumptions C62_query.

Definition rev_motd : model := motd_backwards.
Example C62_ex :
  @keys_ok zero_hasher motd /\ reorder_model motd rev_motd
  /\ @standard_model_validation zero_hasher motd false <> Ok []
  /\ shape_names motd <> shape_names rev_motd
  /\ @query zero_hasher [XShapeType TyStructure] motd <> @query zero_hasher [XShapeType TyStructure] rev_motd
  /\ (forall s1 p1 n1 i1 s2 p2 n2 i2, stored motd s1 -> linted p1 -> name_at s1 p1 n1 i1 ->
       stored motd s2 -> linted p2 -> name_at s2 p2 n2 i2 ->
       ident_eqb n1 n2 = true -> @hash_str byte_hasher n1 = @hash_str byte_hasher n2 -> n1 = n2).
Proof.
  split; [apply (ltac:(solve_model_ok motd) : @model_ok zero_hasher motd)|]. split; [apply C23_ex|].
  split; [vm_compute; discriminate|]. split; [vm_compute; discriminate|]. split; [vm_compute; discriminate|].
  intros s1 p1 n1 i1 s2 p2 n2 i2 S1 L1 N1 S2 L2 N2 E Hs.
  assert (A : In (n1, i1) (all_mentions motd)) by (apply all_mentions_spec; eauto).
  assert (B : In (n2, i2) (all_mentions motd)) by (apply all_mentions_spec; eauto).
  assert (F : forallb (fun a => forallb (fun b => implb (@ident_key_eqb byte_hasher (fst a) (fst b)) (str_eqb (fst a) (fst b))) (all_mentions motd)) (all_mentions motd) = true)
    by (vm_compute; reflexivity).
  rewrite forallb_forall in F. specialize (F _ A). rewrite forallb_forall in F. specialize (F _ B). cbn [fst] in F.
  unfold ident_key_eqb in F. rewrite E, Hs, Z.eqb_refl in F.
  apply str_eqb_eq, F.
Qed.
