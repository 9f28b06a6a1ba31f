(** C45: the bodies of shapes after any history of calls. *)
From Verif.Model Require Import ShapeApi.
From Verif.Spec Require Import ShapeApiSpec Witness.
From Verif.Proofs Require Import HashMapFacts IdentityFacts ShapeApiFacts.

(** *** Services *)
Theorem C45_service_history `{Hasher} :
  forall (v : str) (cs : list service_method),
    Forall (real sid_key_eqb) (m_renames cs) ->
    (service_after v cs = Panic <-> In [] (v :: m_versions cs))
    /\ (forall e, service_after v cs <> Err e)
    /\ forall s, service_after v cs = Ok s ->
       latest (v :: m_versions cs) = Some (sv_version s)
       /\ survivors (m_operations cs) (sv_operations s)
       /\ survivors (m_resources cs) (sv_resources s)
       /\ distinct sid_key_eqb (sv_renames s)
       /\ forall k,
            sv_contains_rename_shape s k = said sid_key_eqb k (m_renames cs)
            /\ (sv_has_rename_shape s k = true <-> said sid_key_eqb k (m_renames cs) <> None)
            /\ (forall n, snd (sv_insert_rename_shape s k n) = said sid_key_eqb k (m_renames cs))
            /\ snd (sv_remove_rename_shape s k) = said sid_key_eqb k (m_renames cs).
Proof.
  intros v cs R. destruct (map_fold sid_key_eqb sid_key_equiv _ R) as [D G].
  unfold service_after. destruct v as [|c v]; cbn [service_new].
  { split; [split; [intros _; left; reflexivity|reflexivity]|]. split; discriminate. }
  rewrite service_run. destruct (existsb is_nil (m_versions cs)) eqn:E.
  { apply is_nil_In in E. split; [split; [intros _; right; exact E|reflexivity]|]. split; discriminate. }
  split; [split; [discriminate|intros [X|X]; [discriminate|apply is_nil_In in X; congruence]]|]. split; [discriminate|].
  intros s Hs. injection Hs as <-. cbn [sv_version sv_operations sv_resources sv_renames].
  split; [apply fold_latest|]. split; [apply survivors_fold|]. split; [apply survivors_fold|]. split; [exact D|].
  intros k. unfold sv_contains_rename_shape, sv_has_rename_shape, hm_contains, sv_insert_rename_shape, sv_remove_rename_shape.
  cbn [sv_renames snd]. specialize (G k). split; [exact G|]. split; [|split; [intros ?; exact G|exact G]].
  rewrite G. destruct (said _ _ _); split; congruence.
Qed.
Print Assumptions C45_service_history.

(** What survives is determined by the history. *)
Theorem C45_one_outcome :
  forall es r r', survivors es r -> survivors es r' -> r = r'.
Proof. exact survivors_fun. Qed.
Print Assumptions C45_one_outcome.

(** The questions whether there is anything in a part are answered truthfully. *)
Theorem C45_has :
  forall (s : service) (o : operation) (r : resource),
    (sv_has_operations s = true <-> exists x, In x (sv_operations s))
    /\ (sv_has_resources s = true <-> exists x, In x (sv_resources s))
    /\ (sv_has_renames s = true <-> exists x, In x (sv_renames s))
    /\ (op_has_input o = true <-> exists i, op_input o = Some i)
    /\ (op_has_output o = true <-> exists i, op_output o = Some i)
    /\ (op_has_errors o = true <-> exists x, In x (op_errors o))
    /\ (rs_has_identifiers r = true <-> exists x, In x (rs_identifiers r))
    /\ (rs_has_create r = true <-> exists i, rs_create r = Some i)
    /\ (rs_has_put r = true <-> exists i, rs_put r = Some i)
    /\ (rs_has_read r = true <-> exists i, rs_read r = Some i)
    /\ (rs_has_update r = true <-> exists i, rs_update r = Some i)
    /\ (rs_has_delete r = true <-> exists i, rs_delete r = Some i)
    /\ (rs_has_list r = true <-> exists i, rs_list r = Some i)
    /\ (rs_has_operations r = true <-> exists x, In x (rs_operations r))
    /\ (rs_has_collection_operations r = true <-> exists x, In x (rs_collection_operations r))
    /\ (rs_has_resources r = true <-> exists x, In x (rs_resources r)).
Proof.
  assert (L : forall A (l : list A), array_has l = true <-> exists x, In x l).
  { intros A [|x l]; cbn [array_has]; split; [discriminate|intros (x & [])|intros _; exists x; left; reflexivity|reflexivity]. }
  assert (O : forall A (o : option A), optional_has o = true <-> exists x, o = Some x).
  { intros A [x|]; cbn [optional_has]; split; [eauto|reflexivity|discriminate|intros (x & X); discriminate X]. }
  intros s o r. repeat split; try apply L; try apply O.
Qed.
Print Assumptions C45_has.

(** *** Operations *)
Theorem C45_operation_history :
  forall cs, exists o, run operation_do operation_default cs = Ok o
    /\ op_input o = settled (m_direction Input cs)
    /\ op_output o = settled (m_direction Output cs)
    /\ survivors (m_errors cs) (op_errors o).
Proof.
  intros cs. eexists. split; [apply operation_run|]. cbn [op_input op_output op_errors operation_default].
  rewrite !fold_settled. split; [reflexivity|]. split; [reflexivity|]. apply survivors_fold.
Qed.
Print Assumptions C45_operation_history.

(** *** Resources *)
Theorem C45_resource_history `{Hasher} :
  forall cs, Forall (real ident_key_eqb) (m_identifiers cs) ->
    exists r, run resource_do resource_default cs = Ok r
    /\ (forall a, life_of a r = settled (m_life a cs))
    /\ (rs_has_any_resource_operation r = true <-> exists a, settled (m_life a cs) <> None)
    /\ (forall g, survivors (m_group g cs) (members_of g r))
    /\ distinct ident_key_eqb (rs_identifiers r)
    /\ (rs_has_identifiers r = true <-> exists n, said ident_key_eqb n (m_identifiers cs) <> None)
    /\ forall n, rs_identifier r n = said ident_key_eqb n (m_identifiers cs)
         /\ (forall t, snd (rs_add_identifier r n t) = said ident_key_eqb n (m_identifiers cs))
         /\ snd (rs_remove_identifier r n) = said ident_key_eqb n (m_identifiers cs).
Proof.
  intros cs R. destruct (map_fold ident_key_eqb ident_key_equiv _ R) as [D G].
  eexists. split; [apply resource_run|]. cbn [resource_default rs_identifiers rs_create rs_put rs_read rs_update rs_delete rs_list rs_operations rs_collection_operations rs_resources].
  assert (L : forall a, life_of a (Resource (fold_left (map_apply ident_key_eqb) (m_identifiers cs) [])
     (fold_left (fun _ y => y) (m_life LCreate cs) None) (fold_left (fun _ y => y) (m_life LPut cs) None)
     (fold_left (fun _ y => y) (m_life LRead cs) None) (fold_left (fun _ y => y) (m_life LUpdate cs) None)
     (fold_left (fun _ y => y) (m_life LDelete cs) None) (fold_left (fun _ y => y) (m_life LList cs) None)
     (fold_left list_apply (m_group GOperations cs) []) (fold_left list_apply (m_group GCollectionOperations cs) [])
     (fold_left list_apply (m_group GResources cs) [])) = settled (m_life a cs)).
  { intros a. rewrite fold_settled. destruct a; reflexivity. }
  split; [exact L|]. split.
  { unfold rs_has_any_resource_operation. cbn [rs_create rs_put rs_read rs_update rs_delete rs_list].
    rewrite <- !fold_settled. rewrite !orb_true_iff. split.
    - assert (X : forall a, optional_has (settled (m_life a cs)) = true -> exists a, settled (m_life a cs) <> None)
        by (intros a E; exists a; intros N; rewrite N in E; discriminate).
      intros [[[[[E|E]|E]|E]|E]|E]; eapply X; exact E.
    - intros [a E]. assert (X : optional_has (settled (m_life a cs)) = true) by (destruct (settled (m_life a cs)); [reflexivity|contradiction]).
      destruct a; rewrite X; tauto. }
  split; [intros g; destruct g; apply survivors_fold|]. split; [exact D|]. split.
  { unfold rs_has_identifiers. cbn [rs_identifiers]. destruct (fold_left _ _ _) as [|[k t] l] eqn:F.
    - split; [discriminate|]. intros [n N]. rewrite <- G in N. contradiction.
    - split; [|reflexivity]. intros _. exists k. rewrite <- G. cbn. rewrite (eqv_refl _ ident_key_equiv). discriminate. }
  intros n. specialize (G n). split; [exact G|]. split; [intros ?; exact G|exact G].
Qed.
Print Assumptions C45_resource_history.

(** *** Structures and unions, from [with_members] of any slice *)
Theorem C45_structure_history `{Hasher} :
  forall (l : list member_shape) (cs : list members_method),
    let said_of n := said ident_key_eqb n (m_members (map MAMember l ++ cs)) in
    exists ms, run members_do (su_with_members l) cs = Ok ms
    /\ distinct ident_key_eqb ms
    /\ (forall n, su_member ms n = said_of n)
    /\ (forall n m, su_member ms n = Some m -> ident_key_eqb (ms_id m) n = true)
    /\ (su_has_members ms = true <-> exists n, said_of n <> None)
    /\ (forall m, In m (hm_values ms) <-> exists n, said_of n = Some m).
Proof.
  intros l cs said_of.
  assert (E : run members_do (su_with_members l) cs = Ok (fold_left (map_apply ident_key_eqb) (m_members (map MAMember l ++ cs)) [])).
  { rewrite members_run. unfold m_members. rewrite map_app, fold_left_app. f_equal. f_equal.
    pose proof (with_members_run l) as W. rewrite members_run in W. injection W as W. exact W. }
  rewrite E. eexists. split; [reflexivity|].
  assert (R : Forall (real ident_key_eqb) (m_members (map MAMember l ++ cs))).
  { apply Forall_forall. unfold m_members. intros e I. apply in_map_iff in I as (c & <- & _). destruct c; exact Logic.I. }
  destruct (map_fold ident_key_eqb ident_key_equiv _ R) as [D G]. clear E.
  split; [exact D|]. split; [exact G|]. split.
  { intros n m. unfold su_member. rewrite G. unfold said. destruct (latest _) as [o|] eqn:L; [|discriminate]. intros ->.
    assert (I : In (Some m) (flat_map (word ident_key_eqb n) (m_members (map MAMember l ++ cs)))).
    { unfold latest in L. apply in_rev. destruct (rev _); [discriminate|]. injection L as ->. left. reflexivity. }
    apply in_flat_map in I as (e & Ie & Iw). unfold m_members in Ie. apply in_map_iff in Ie as (c & <- & _).
    destruct c as [k t|m'|k]; cbn [word] in Iw; destruct (ident_key_eqb _ n) eqn:Q; cbn in Iw; try contradiction; destruct Iw as [X|[]];
      try discriminate; injection X as <-; exact Q. }
  set (ms := fold_left _ _ _) in *. clearbody ms. split.
  { unfold su_has_members. destruct ms as [|[k t] ms].
    - split; [discriminate|]. intros [n N]. unfold said_of in N. rewrite <- G in N. contradiction.
    - split; [|reflexivity]. intros _. exists k. unfold said_of. rewrite <- G. cbn. rewrite (eqv_refl _ ident_key_equiv). discriminate. }
  intros m. unfold said_of, hm_values. rewrite in_map_iff. split.
  - intros ([k m'] & <- & I). exists k. rewrite <- G. apply hm_get_In; [apply ident_key_equiv|exact D|exact I].
  - intros [n N]. rewrite <- G in N. apply hm_get_Some_In in N as (k & I & _). exists (k, m). auto.
Qed.
Print Assumptions C45_structure_history.

(** *** Lists, sets and maps *)
Definition C45_member_names_are_fixed : Prop :=
  (forall l m l', ms_id l = lit "member" -> list_set_member l m = Ok l' -> ms_id l' = lit "member")
  /\ (forall k v, ms_id (fst (map_from k v)) = lit "key" /\ ms_id (snd (map_from k v)) = lit "value").
Theorem C45_member_names_are_fixed_refuted : ~ C45_member_names_are_fixed.
Proof.
  intros [_ C]. destruct (C (MS (lit "x") [] (ex_id "T")) (MS (lit "y") [] (ex_id "T"))) as [E _]. discriminate.
Qed.
Print Assumptions C45_member_names_are_fixed_refuted.
(** Not even when only lists are meant: *)
Theorem C45_list_member_name_is_fixed_refuted :
  ~ (forall l m l', ms_id l = lit "member" -> list_set_member l m = Ok l' -> ms_id l' = lit "member").
Proof.
  intros C. specialize (C (list_new (ex_id "T")) (MS (lit "Member") [] (ex_id "T")) (MS (lit "Member") [] (ex_id "T")) eq_refl eq_refl). discriminate.
Qed.
Print Assumptions C45_list_member_name_is_fixed_refuted.

(** What holds: after [new], or a successful [from], and any calls, the members are those set last,
    and their names are the fixed ones up to case; a call panics exactly when the name it is
    given is not. *)
Theorem C45_list_history :
  forall (l : member_shape) (ms : list member_shape),
    (exists t, l = list_new t) \/ (exists m, list_from m = Ok l) ->
    (run list_set_member l ms = Panic <-> exists m, In m ms /\ ~ named (lit "member") m)
    /\ (forall e, run list_set_member l ms <> Err e)
    /\ forall l', run list_set_member l ms = Ok l' -> latest (l :: ms) = Some l' /\ named (lit "member") l'.
Proof.
  intros l ms S.
  assert (N : named (lit "member") l).
  { destruct S as [[t ->]|[m E]]; [reflexivity|]. unfold list_from in E. destruct (str_eqb _ _) eqn:Q; [|discriminate].
    injection E as ->. apply str_eqb_eq in Q. unfold named. rewrite Q. reflexivity. }
  clear S. revert l N. induction ms as [|m ms IH]; intros l N.
  - cbn. split; [split; [discriminate|intros (m & [] & _)]|]. split; [discriminate|]. intros l' E. injection E as <-. split; [reflexivity|exact N].
  - cbn [run]. unfold list_set_member at 1 3 5. rewrite (named_cong _ _ (ms_id m) N).
    destruct (ident_eqb (ms_id m) (lit "member")) eqn:Q.
    + destruct (IH m Q) as (P & E & G). split; [|split; [exact E|]].
      * rewrite P. split; [intros (x & I & Nx); exists x; split; [right; exact I|exact Nx]|].
        intros (x & [<-|I] & Nx); [contradiction|exists x; auto].
      * intros l' R. destruct (G l' R) as [L M]. split; [|exact M]. change (l :: m :: ms) with ([l] ++ (m :: ms)). rewrite latest_app, L. reflexivity.
    + split; [split; [intros _; exists m; split; [left; reflexivity|unfold named; congruence]|reflexivity]|]. split; discriminate.
Qed.
Print Assumptions C45_list_history.

Theorem C45_map_history :
  forall (k v : member_shape) (cs : list map_method),
    (run map_do (map_from k v) cs = Panic <-> exists c, In c cs /\ misnamed (ms_id k) (ms_id v) c)
    /\ (forall e, run map_do (map_from k v) cs <> Err e)
    /\ (forall kv, run map_do (map_from k v) cs = Ok kv ->
       latest (k :: keys_set cs) = Some (fst kv) /\ latest (v :: values_set cs) = Some (snd kv)
       /\ named (ms_id k) (fst kv) /\ named (ms_id v) (snd kv))
    /\ forall a b, map_new a b = map_from (MS (lit "key") [] a) (MS (lit "value") [] b).
Proof.
  intros k v cs. unfold map_from.
  destruct (map_run (ms_id k) (ms_id v) cs k v (ident_eqb_refl _) (ident_eqb_refl _)) as (P & E & G).
  split; [exact P|]. split; [exact E|]. split; [exact G|]. intros a b. reflexivity.
Qed.
Print Assumptions C45_map_history.

Example C45_ex (Hz := zero_hasher) :
  service_after (lit "1.0")
    [MOperations (Append [SID "a.b" "One" None; SID "a.b" "Two" None]); MVersion (lit "2.0"); MOperations (Remove (SID "a.b" "one" None));
     MResourceShape (Shape (SID "a.b" "Res" None) [] (KResource resource_default));
     MOperationShape (Shape (SID "a.b" "Res" None) [] (KResource resource_default))]
    = Ok (Service (lit "2.0") [SID "a.b" "Two" None] [SID "a.b" "Res" None] [])
  /\ service_after (lit "1.0") [MVersion []] = Panic
  /\ survivors [Append [SID "a.b" "One" None; SID "a.b" "Two" None]; Remove (SID "a.b" "one" None)] [SID "a.b" "Two" None]
  /\ run operation_do operation_default [MSet Input (SID "a.b" "In" None); MUnset Input; MErrors (Add (SID "a.b" "E" None))]
     = Ok (Operation None None [SID "a.b" "E" None])
  /\ run list_set_member (list_new (SID "a.b" "T" None)) [MS (lit "other") [] (SID "a.b" "T" None)] = Panic.
Proof.
  split; [reflexivity|]. split; [reflexivity|]. split; [exact (survivors_fold _)|]. split; reflexivity.
Qed.
