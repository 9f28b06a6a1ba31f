(** C17-C22: completeness, validators, runners and linters (atelier-core action module). *)
From Verif.Model Require Import Actions.
From Verif.Spec Require Import ModelSpec ActionsSpec MessageSpec Witness.
From Verif.Proofs Require Import BaseFacts HashMapFacts ActionFacts MessageFacts.

(* ---------------------------------------------------------------- C17 *)
Lemma filter_nil_existsb {A} (f : A -> bool) l : existsb f l = false <-> filter f l = [].
Proof.
  induction l as [|a l IH]; cbn; [tauto|]. destruct (f a); cbn; [split; discriminate|exact IH].
Qed.

Theorem C17_completeness :
  forall (H : Hasher) (m : model),
    (is_complete m = true <-> forall s, stored m s -> ts_body s <> KUnresolved)
    /\ (is_complete m = true <-> unresolved_shape_names m = [])
    /\ (forall buf, is_complete m = true <-> fst (nur_validate m buf) = buf).
Proof.
  intros H m.
  assert (A : is_complete m = true <-> filter (fun s => is_unresolved (ts_body s)) (shapes m) = []).
  { unfold is_complete. rewrite negb_true_iff. apply filter_nil_existsb. }
  split; [|split].
  - rewrite A. split.
    + intros F s S B. apply In_shapes in S. assert (I : In s []) by (rewrite <- F; apply filter_In; rewrite B; auto). destruct I.
    + intros F. destruct (filter _ _) as [|s l] eqn:E; [reflexivity|]. exfalso.
      assert (I : In s (s :: l)) by (left; reflexivity). rewrite <- E in I. apply filter_In in I as [I B].
      apply (F s); [apply In_shapes, I|]. destruct (ts_body s); try discriminate; reflexivity.
  - rewrite A. unfold unresolved_shape_names. split; [intros ->; reflexivity|]. apply map_eq_nil.
  - intros buf. rewrite A. unfold nur_validate. cbn [fst].
    assert (E : flat_map nur_shape (shapes m)
                = map (fun s => error_nowhere nur_label (nur_message (ts_id s))) (filter (fun s => is_unresolved (ts_body s)) (shapes m))).
    { clear A. induction (shapes m) as [|s l IH]; cbn; [reflexivity|]. rewrite IH. unfold nur_shape. destruct (ts_body s); reflexivity. }
    rewrite E. split; [intros ->; apply app_nil_r|]. intros F.
    assert (N : map (fun s => error_nowhere nur_label (nur_message (ts_id s))) (filter (fun s => is_unresolved (ts_body s)) (shapes m)) = []).
    { apply (app_inv_head buf). rewrite app_nil_r. exact F. }
    apply map_eq_nil in N. exact N.
Qed.
Print Assumptions C17_completeness.

(** Every id in the model is listed exactly once, as resolved or as unresolved. *)
Theorem C17_names_partition :
  forall (H : Hasher) (m : model) (id : shape_id),
    (In id (shape_names m) <-> exists s, stored m s /\ ts_id s = id /\ ts_body s <> KUnresolved)
    /\ (In id (unresolved_shape_names m) <-> exists s, stored m s /\ ts_id s = id /\ ts_body s = KUnresolved)
    /\ length (shape_names m) + length (unresolved_shape_names m) = length (m_shapes m).
Proof.
  intros H m id. split; [|split].
  - unfold shape_names. rewrite in_map_iff. split.
    + intros (s & <- & I). apply filter_In in I as [I B]. apply In_shapes in I. exists s. split; [assumption|]. split; [reflexivity|].
      intros C. rewrite C in B. discriminate.
    + intros (s & I & <- & B). exists s. split; [reflexivity|]. apply filter_In. split; [apply In_shapes, I|]. destruct (ts_body s); congruence || reflexivity.
  - unfold unresolved_shape_names. rewrite in_map_iff. split.
    + intros (s & <- & I). apply filter_In in I as [I B]. apply In_shapes in I. exists s. split; [assumption|]. split; [reflexivity|].
      destruct (ts_body s); discriminate || reflexivity.
    + intros (s & I & <- & B). exists s. split; [reflexivity|]. apply filter_In. split; [apply In_shapes, I|]. rewrite B; reflexivity.
  - unfold shape_names, unresolved_shape_names. rewrite !map_length.
    assert (L : length (m_shapes m) = length (shapes m)) by (unfold shapes, hm_values; rewrite map_length; reflexivity).
    rewrite L. clear L. induction (shapes m) as [|s l IH]; cbn; [reflexivity|]. destruct (is_unresolved (ts_body s)); cbn; lia.
Qed.
Print Assumptions C17_names_partition.

(** The namespaces are those of the resolved shapes, each once; two that differ in letter case only may be
    listed as one if their hashes collide. *)
Lemma distinct_nodup {K V} keq (EQ : equivb keq) (m : list (K * V)) : distinct keq m -> NoDup (map fst m).
Proof.
  induction m as [|[k v] m IH]; cbn; [constructor|]. intros [A D]. constructor; [|auto]. intros I. apply in_map_iff in I as ([k' v'] & E & I).
  cbn in E. subst k'. specialize (A _ _ I). rewrite (eqv_refl _ EQ) in A. discriminate A.
Qed.
Lemma from_list_keys {K} keq (EQ : equivb keq) (l : list K) :
  let ks := map fst (hm_from_list keq (map (fun k => (k, tt)) l)) in
  (forall k, In k ks -> In k l) /\ (forall k, In k l -> exists k', In k' ks /\ keq k' k = true) /\ NoDup ks.
Proof.
  assert (G : forall l0 m, distinct keq m -> (forall k, In k (map fst m) -> In k l \/ In k (map fst m)) ->
    let ks := map fst (fold_left (fun m kv => hm_insert keq (fst kv) (snd kv) m) (map (fun k : K => (k, tt)) l0) m) in
    (forall k, In k ks -> In k l0 \/ In k (map fst m))
    /\ (forall k, In k l0 \/ In k (map fst m) -> exists k', In k' ks /\ keq k' k = true)
    /\ distinct keq (fold_left (fun m kv => hm_insert keq (fst kv) (snd kv) m) (map (fun k : K => (k, tt)) l0) m)).
  { induction l0 as [|x l0 IH]; intros m D _; cbn [map fold_left fst snd].
    - split; [auto|]. split; [|exact D]. intros k [[]|I]. exists k. split; [exact I|apply EQ].
    - assert (KI : forall k, In k (map fst (hm_insert keq x tt m)) -> k = x \/ In k (map fst m)).
      { clear. induction m as [|[k' v'] m IH]; cbn; [intros k [->|[]]; auto|]. destruct (keq k' x); cbn; intros k [->|I]; auto. apply IH in I. tauto. }
      assert (IK : forall k, k = x \/ In k (map fst m) -> exists k', In k' (map fst (hm_insert keq x tt m)) /\ keq k' k = true).
      { assert (R : forall a, keq a a = true) by apply EQ. clear -R. induction m as [|[k' v'] m IH]; cbn; [intros k [->|[]]; eauto|].
        destruct (keq k' x) eqn:E; cbn; intros k [->|[->|I]]; eauto.
        - destruct (IH x (or_introl eq_refl)) as (z & Z1 & Z2). eauto.
        - destruct (IH k (or_intror I)) as (z & Z1 & Z2). eauto. }
      destruct (IH (hm_insert keq x tt m)) as (A & B & C); [apply distinct_insert; assumption|auto|]. split; [|split; [|exact C]].
      + intros k I. apply A in I as [I|I]; [left; right; exact I|]. apply KI in I as [->|I]; [left; left; reflexivity|right; exact I].
      + intros k I. assert (J : In k l0 \/ k = x \/ In k (map fst m)) by (cbn in I; intuition (subst; auto)).
        destruct J as [J|J]; [apply B; auto|]. apply IK in J as (z & Z1 & Z2).
        destruct (B z (or_intror Z1)) as (w & W1 & W2). exists w. split; [exact W1|]. destruct EQ as [_ _ T]. eapply T; eassumption. }
  destruct (G l [] I) as (A & B & C); [intros k []|]. split; [|split].
  - intros k J. apply A in J as [J|[]]. exact J.
  - intros k J. apply B. auto.
  - unfold hm_from_list. apply (distinct_nodup keq EQ), C.
Qed.
Theorem C17_namespaces :
  forall (H : Hasher) (m : model),
    (forall ns, In ns (namespaces m) -> exists s, stored m s /\ ts_body s <> KUnresolved /\ sid_ns (ts_id s) = ns)
    /\ (forall s, stored m s -> ts_body s <> KUnresolved ->
          exists ns, In ns (namespaces m) /\ ident_eqb ns (sid_ns (ts_id s)) = true /\ hash_str ns = hash_str (sid_ns (ts_id s)))
    /\ NoDup (namespaces m).
Proof.
  intros H m. unfold namespaces.
  assert (E : map (fun id => (sid_ns id, tt)) (shape_names m) = map (fun k => (k, tt)) (map sid_ns (shape_names m))) by (rewrite map_map; reflexivity).
  rewrite E. destruct (from_list_keys _ ident_key_equiv (map sid_ns (shape_names m))) as (A & B & C). split; [|split; [|exact C]].
  - intros ns I. apply A, in_map_iff in I as (id & <- & I). apply (C17_names_partition H m id) in I as (s & S & <- & N). eauto.
  - intros s S N. destruct (B (sid_ns (ts_id s))) as (ns & I & K).
    + apply in_map, (C17_names_partition H m (ts_id s)). eauto.
    + unfold ident_key_eqb in K. apply andb_true_iff in K as [K1 K2]. apply Z.eqb_eq in K1. eauto.
Qed.
Print Assumptions C17_namespaces.

Example C17_ex : @is_complete motd = false /\ unresolved_shape_names motd = [api_id "String"]
  /\ is_complete (@remove_shape zero_hasher motd (api_id "String")) = true
  /\ @namespaces byte_hasher motd = [lit "example.motd"].
Proof. vm_compute. repeat split. Qed.

(* ---------------------------------------------------------------- C18 *)
(** One error per unresolved shape, naming it, in the order of the shapes; nothing else; never fails. *)
Theorem C18_no_unresolved_references_exact :
  forall (m : model) (buf : list issue),
  exists new,
    nur_validate m buf = (buf ++ new, Ok tt)
    /\ Forall2 (fun s i => i_level i = Error /\ i_reporter i = lit "NoUnresolvedReferences" /\ i_locus i = None
                           /\ i_message i = lit "The model has an unresolved reference to shape '" ++ sid_display (ts_id s) ++ lit "'")
         (filter (fun s => is_unresolved (ts_body s)) (shapes m)) new.
Proof.
  intros m buf. eexists. split; [reflexivity|].
  induction (shapes m) as [|s l IH]; cbn; [constructor|]. unfold nur_shape at 1. destruct (ts_body s); cbn; try exact IH.
  constructor; [|exact IH]. repeat split.
Qed.
Print Assumptions C18_no_unresolved_references_exact.

Example C18_ex : map i_message (fst (nur_validate motd [])) = [lit "The model has an unresolved reference to shape 'smithy.api#String'"].
Proof. vm_compute. reflexivity. Qed.

(* ---------------------------------------------------------------- C19 *)
Theorem C19_correct_type_references_exact :
  forall (H : Hasher) (m : model) (buf : list issue),
  exists new,
    ctr_validate m buf = (buf ++ new, Ok tt)
    (* an issue of a level is reported at an id exactly when the shape there has an offence of that level *)
    /\ (forall (l : level) (id : shape_id),
          (exists i, In i new /\ i_level i = l /\ i_locus i = Some id)
          <-> exists s, stored m s /\ ts_id s = id /\ offence m s l)
    (* and nothing else is reported *)
    /\ (forall i, In i new -> i_locus i <> None /\ i_reporter i = lit "CorrectTypeReferences").
Proof.
  intros H m buf. eexists. split; [reflexivity|]. split; [intros l id; apply ctr_issues|]. intros i I. apply (ctr_no_nowhere m), I.
Qed.
Print Assumptions C19_correct_type_references_exact.

(** No error at all exactly when every reference to a shape of the model is of the right kind. *)
Theorem C19_no_error_iff_well_kinded :
  forall (H : Hasher) (m : model),
    (forall i, In i (fst (ctr_validate m [])) -> i_level i <> Error)
    <-> (forall s n t x, stored m s -> refers (ts_body s) n t -> model_shape m t = Some x -> fits n (ts_body x)).
Proof.
  intros H m. cbn [fst ctr_validate app]. split.
  - intros N s n t x S R G. destruct (fitsb n (ts_body x)) eqn:F; [apply fitsb_fits, F|]. exfalso.
    destruct (proj2 (ctr_issues m Error (ts_id s))) as (i & I & L & _).
    + exists s. split; [assumption|]. split; [reflexivity|]. eapply off_kind; eauto. rewrite <- fitsb_fits, F. discriminate.
    + exact (N i I L).
  - intros W i I L. destruct (ctr_no_nowhere m i I) as [NL _]. destruct (i_locus i) as [id|] eqn:E; [|congruence].
    destruct (proj1 (ctr_issues m Error id)) as (s & S & <- & O); [eauto|]. inversion O as [n t x R G F| |]; subst. eapply F, W; eauto.
Qed.
Print Assumptions C19_no_error_iff_well_kinded.

(** As many issues as offences: one per offending reference plus one per trait-less simple shape. *)
Theorem C19_one_issue_per_offence :
  forall (H : Hasher) (m : model),
  exists refs : shape -> list (needs * shape_id),
    (forall s n t, In (n, t) (refs s) <-> refers (ts_body s) n t)
    /\ map (fun i => (i_level i, i_locus i)) (fst (ctr_validate m []))
       = flat_map (fun s =>
           (match ts_body s, ts_traits s with KSimple _, [] => [(Info, Some (ts_id s))] | _, _ => [] end)
           ++ flat_map (fun r => match model_shape m (snd r) with
                                 | Some x => if fitsb (fst r) (ts_body x) then [] else [(Error, Some (ts_id s))]
                                 | None => if str_eqb (sid_ns (snd r)) (lit "smithy.api") then [] else [(Warning, Some (ts_id s))]
                                 end) (refs s)) (shapes m).
Proof.
  intros H m. exists (fun s => reference_list (ts_body s)). split; [intros; apply reference_list_spec|].
  cbn [fst ctr_validate app]. fold mark. change (fun i => (i_level i, i_locus i)) with mark.
  rewrite map_flat_map. apply flat_map_ext. intros s. rewrite ctr_shape_marks, map_app. f_equal.
  - unfold simple_verdict. destruct (ts_body s), (ts_traits s); reflexivity.
  - rewrite map_flat_map. apply flat_map_ext. intros [n t]. unfold verdict. cbn [fst snd].
    destruct (model_shape m t); [destruct (fitsb _ _)|destruct (str_eqb _ _)]; reflexivity.
Qed.
Print Assumptions C19_one_issue_per_offence.

(** A service used as data, an operation list that contains a structure, a dangling target. *)
Definition bad_model : model :=
  Model V10 [] (map (fun s => (ts_id s, s))
    [motd_service; motd_input;
     Shape (ex_id "L") [] (KList (MS "member" [] (ex_id "MessageOfTheDay")));
     Shape (ex_id "S2") [] (KService (Service "1" [ex_id "GetMessageInput"] [] []))]).
Example C19_ex :
  map (fun i => (i_level i, i_locus i)) (fst (@ctr_validate zero_hasher bad_model []))
  = [(Warning, Some (ex_id "MessageOfTheDay")); (Warning, Some (ex_id "GetMessageInput"));
     (Error, Some (ex_id "L")); (Error, Some (ex_id "S2"))]
  /\ map i_level (fst (@ctr_validate zero_hasher motd [])) = [].
Proof. vm_compute. repeat split. Qed.

(** The issues in full: each says which reference of which shape is wrong and in what way. *)
Theorem C19_messages :
  forall (H : Hasher) (m : model) (buf : list issue),
  exists new,
    ctr_validate m buf = (buf ++ new, Ok tt)
    /\ forall i, In i new <-> exists s, stored m s /\ type_issue m s i.
Proof.
  intros H m buf. eexists. split; [reflexivity|]. intros i. rewrite in_flat_map. split.
  - intros (s & S & I). apply In_shapes in S. apply type_issues in I. eauto.
  - intros (s & S & I). exists s. split; [apply In_shapes, S|apply type_issues, I].
Qed.
Print Assumptions C19_messages.
Example C19_messages_ex : map i_message (fst (@ctr_validate zero_hasher bad_model []))
  = [lit "Service resource's type (example.motd#Message) cannot be resolved to a shape in this model.";
     lit "example.motd#GetMessageInput member date's type (example.motd#Date) cannot be resolved to a shape in this model.";
     lit "example.motd#L member member must not refer to a service, operation, resource or member.";
     lit "Service operation must be an operation."].
Proof. vm_compute. reflexivity. Qed.

(* ---------------------------------------------------------------- C20 *)
(** All actions run, each on what it already held, and the issues are concatenated in order. *)
Theorem C20_all_run_in_order :
  forall (m : model) (acts : list action) (fail_fast : bool),
    (forall a, In a acts -> snd (a_call a m (a_issues a)) = Ok tt) ->
    fail_fast = false ->
    run_actions acts m fail_fast
    = (map (fun a => Action [] (a_call a)) acts, Ok (flat_map (fun a => fst (a_call a m (a_issues a))) acts)).
Proof. intros m acts ff F _. apply (run_loop_ok m ff acts []), F. Qed.
Print Assumptions C20_all_run_in_order.

(** An action that fails aborts: the actions after it are not called, the failure is returned. *)
Theorem C20_failure_aborts :
  forall (m : model) (before after : list action) (a : action) (fail_fast : bool) (r : result unit),
    (forall b, In b before -> snd (a_call b m (a_issues b)) = Ok tt) ->
    snd (a_call a m (a_issues a)) = r -> r <> Ok tt -> fail_fast = false ->
    exists a', run_actions (before ++ a :: after) m fail_fast
    = (map (fun b => Action [] (a_call b)) before ++ a' :: after, match r with Err e => Err e | _ => Panic end).
Proof. intros m before after a ff r F E N _. apply (run_loop_fail m ff r before a after []); assumption. Qed.
Print Assumptions C20_failure_aborts.

Definition C20_fail_fast_stops : Prop :=
  forall (m : model) (a : action) (after : list action) (new : list issue),
    a_call a m (a_issues a) = (new, Ok tt) -> (exists i, In i new /\ i_level i = Error) ->
    snd (run_actions (a :: after) m true) = Ok new.

(** The flag has no effect whatsoever, so it never stops anything. *)
Theorem C20_fail_fast_stops_refuted :
  ~ C20_fail_fast_stops
  /\ forall (m : model) (acts : list action), run_actions acts m true = run_actions acts m false.
Proof.
  split; [|intros; apply run_loop_fail_fast].
  intros C. specialize (C motd (Action [] nur_validate) [Action [] nur_validate] _ eq_refl).
  vm_compute in C. assert (X := C ltac:(eexists; split; [left; reflexivity|reflexivity])). discriminate.
Qed.
Print Assumptions C20_fail_fast_stops_refuted.

(** The standard entry points. *)
Theorem C20_standard_actions :
  forall (H : Hasher) (camel mixed snake : str -> str) (m : model) (fail_fast : bool),
    standard_model_validation m fail_fast = Ok (fst (nur_validate m []) ++ fst (ctr_validate m []))
    /\ standard_model_lint camel mixed snake m fail_fast
       = Ok (fst (nc_check camel mixed m []) ++ fst (ut_check snake m [])).
Proof.
  intros H camel mixed snake m ff. unfold standard_model_validation, standard_model_lint, run_actions.
  rewrite !run_loop_ok; cbn.
  - rewrite !app_nil_r. split; reflexivity.
  - intros a [<-|[<-|[]]]; reflexivity.
  - intros a [<-|[<-|[]]]; reflexivity.
Qed.
Print Assumptions C20_standard_actions.

Example C20_ex : exists l, @standard_model_validation zero_hasher bad_model true = Ok l /\ length l = 4
  /\ (forall a, In a [Action [] nur_validate; Action [] (@ctr_validate zero_hasher)] -> snd (a_call a bad_model (a_issues a)) = Ok tt).
Proof. eexists. split; [vm_compute; reflexivity|]. split; [reflexivity|]. intros a [<-|[<-|[]]]; reflexivity. Qed.

(* ---------------------------------------------------------------- C21 *)
Definition C21_naming_conventions_exact (considered : place -> Prop) : Prop :=
  forall (H : Hasher) (camel mixed : str -> str) (m : model) (buf : list issue),
  exists new,
    nc_check camel mixed m buf = (buf ++ new, Ok tt)
    /\ (forall i, In i new -> i_level i = Info /\ i_reporter i = lit "NamingConventions" /\ i_locus i <> None)
    /\ (forall id, (exists i, In i new /\ i_locus i = Some id)
                   <-> exists s p c n, stored m s /\ considered p /\ must_follow s p c n id /\ ~ in_form camel mixed c n).

(** Exact for every place except the traits of list, set and map elements (and resource identifiers
    and renames, for which no convention is documented). *)
Theorem C21_naming_conventions_exact_on_linted_places : C21_naming_conventions_exact linted.
Proof.
  intros H camel mixed m buf. eexists. split; [reflexivity|]. split.
  - intros i I. apply in_flat_map in I as (s & _ & I). destruct (nc_shape_infos camel mixed s i I) as (id & A & B & C).
    split; [assumption|]. split; [exact C|congruence].
  - intros id. split.
    + intros (i & I & L). apply in_flat_map in I as (s & Is & I). apply In_shapes in Is.
      destruct (nc_shape_infos camel mixed s i I) as (id' & P). assert (id' = id) by (destruct P as (_ & P & _); congruence). subst id'.
      destruct (proj1 (nc_shape_spec camel mixed lower s id)) as (p & c & n & M & Lp & N); [eauto|].
      exists s, p, c, n. split; [assumption|]. split; [assumption|]. split; [assumption|]. destruct c; exact N.
    + intros (s & p & c & n & S & Lp & M & N).
      destruct (proj2 (nc_shape_spec camel mixed lower s id)) as (i & I & P); [exists p, c, n; split; [assumption|]; split; [assumption|]; destruct c; exact N|].
      exists i. split; [|destruct P as (_ & P & _); exact P]. apply in_flat_map. exists s. split; [apply In_shapes, S|exact I].
Qed.
Print Assumptions C21_naming_conventions_exact_on_linted_places.

Definition list_with_bad_trait : model :=
  Model V10 [] [(ex_id "L", Shape (ex_id "L") [] (KList (MS "member" [(ex_id "BadTrait", None)] (ex_id "T"))))].
Theorem C21_element_traits_refuted : ~ C21_naming_conventions_exact (fun _ => True).
Proof.
  intros C.
  destruct (C zero_hasher (fun s => s) lower list_with_bad_trait []) as (new & E & _ & X).
  vm_compute in E. injection E as <-. destruct (X (ex_id "BadTrait")) as [_ X'].
  destruct X' as (i & [] & _). exists (snd (hd (ex_id "L", motd_date) (m_shapes list_with_bad_trait))), PElementTrait, LowerCamel, (lit "BadTrait").
  split; [eexists; left; reflexivity|]. split; [exact I|]. split; [|vm_compute; discriminate].
  apply (mf_applied _ PElementTrait (ex_id "BadTrait")); [tauto|]. eapply ia_element_trait; [constructor|left; reflexivity].
Qed.
Print Assumptions C21_element_traits_refuted.

Definition first_lower (s : str) : str := match s with c :: s' => lower_ch c :: s' | [] => [] end.
Definition first_upper (s : str) : str :=
  match s with c :: s' => (if is_lower c then ascii_of_N (ch_N c - 32) else c) :: s' | [] => [] end.
Definition bad_names : model :=
  Model V10 [] (map (fun s => (ts_id s, s))
    [Shape (ex_id "shouldBeUpper") [] (KSimple SString);
     Shape (ex_id "MyStructure") [(ex_id "BadTraitName", None)]
       (KStructure [ex_member "okName" (api_id "String"); ex_member "BadName" (ex_id "myString")])]).
Example C21_ex :
  map i_locus (fst (@nc_check zero_hasher first_upper first_lower bad_names []))
  = [Some (ex_id "shouldBeUpper"); Some (ex_id "BadTraitName"); Some (ex_id "MyStructure"); Some (ex_id "myString")].
Proof. vm_compute. reflexivity. Qed.

(** The issues in full: at every place that does not follow its convention, the form the name should have. *)
Theorem C21_messages :
  forall (H : Hasher) (camel mixed : str -> str) (m : model) (buf : list issue),
  exists new,
    nc_check camel mixed m buf = (buf ++ new, Ok tt)
    /\ forall i, In i new
         <-> exists s p c n id, stored m s /\ linted p /\ must_follow s p c n id /\ ~ in_form camel mixed c n
              /\ i = Issue (lit "NamingConventions") Info (naming_message p c (proper camel mixed c n)) (Some id).
Proof.
  intros H camel mixed m buf. eexists. split; [reflexivity|]. intros i. rewrite in_flat_map. split.
  - intros (s & S & I). apply In_shapes in S. apply naming_issues in I as (p & c & n & id & M & L & N & E).
    exists s, p, c, n, id. auto 6.
  - intros (s & p & c & n & id & S & L & M & N & E). exists s. split; [apply In_shapes, S|]. apply naming_issues.
    exists p, c, n, id. split; [exact M|]. split; [exact L|]. split; [exact N|exact E].
Qed.
Print Assumptions C21_messages.
Example C21_messages_ex :
  map i_message (fst (@nc_check zero_hasher first_upper first_lower bad_names []))
  = [lit "Defined shape names should conform to UpperCamelCase, i.e. ShouldBeUpper";
     lit "Trait names should conform to lowerCamelCase, i.e. badTraitName";
     lit "Member names should conform to lowerCamelCase, i.e. badName";
     lit "References to shape names should conform to UpperCamelCase, i.e. MyString"].
Proof. vm_compute. reflexivity. Qed.

(* ---------------------------------------------------------------- C22 *)
(** Soundness, and completeness up to names that match as keys of the set of checked names. *)
Theorem C22_unwelcome_terms :
  forall (H : Hasher) (snake : str -> str) (m : model) (buf : list issue),
  exists new,
    ut_check snake m buf = (buf ++ new, Ok tt)
    (* every issue is a warning about an unwelcome word of a name in the model, at the id the name belongs to *)
    /\ (forall i, In i new ->
          exists s p n id w, stored m s /\ linted p /\ name_at s p n id /\ has_unwelcome_word snake n w
            /\ i = Issue (lit "UnwelcomeTerms") Warning (unwelcome_message w) (Some id))
    (* every name in a linted place is checked, itself or under a spelling that differs only in case *)
    /\ (forall s p n id, stored m s -> linted p -> name_at s p n id ->
          exists n' s' p' id', ident_eqb n' n = true /\ stored m s' /\ linted p' /\ name_at s' p' n' id'
            /\ forall w, has_unwelcome_word snake n' w ->
                 In (Issue (lit "UnwelcomeTerms") Warning (unwelcome_message w) (Some id')) new).
Proof.
  intros H snake m buf. eexists. split; [apply ut_check_issues|]. split.
  - intros i I. apply in_flat_map in I as ([n id] & I & R). apply firsts_incl, all_mentions_spec in I as (s & p & S & L & N).
    apply In_report in R as (w & W & ->). exists s, p, n, id, w. repeat (split; [assumption|]). repeat split.
  - intros s p n id S L N. assert (I : In (n, id) (all_mentions m)) by (apply all_mentions_spec; eauto).
    destruct (firsts_covers _ [] n id I) as [C|(n' & id' & F & E)]; [discriminate|].
    assert (I' := firsts_incl _ _ _ F). apply all_mentions_spec in I' as (s' & p' & S' & L' & N').
    exists n', s', p', id'. split; [apply andb_true_iff in E; apply E|]. repeat (split; [assumption|]).
    intros w W. apply in_flat_map. exists (n', id'). split; [exact F|]. apply In_report. exists w. split; [exact W|reflexivity].
Qed.
Print Assumptions C22_unwelcome_terms.

(** No name is checked twice: a model whose names are all alike up to case is reported on once. *)
Theorem C22_each_name_once :
  forall (H : Hasher) (snake : str -> str) (m : model) (buf : list issue),
  exists names : list (str * shape_id),
    ForallOrdPairs (fun a b => fst a <> fst b) names
    /\ (forall n id, In (n, id) names -> exists s p, stored m s /\ linted p /\ name_at s p n id)
    /\ fst (ut_check snake m buf)
       = buf ++ flat_map (fun p => map (fun w => Issue (lit "UnwelcomeTerms") Warning (unwelcome_message w) (Some (snd p)))
                                    (filter (fun w => mem_str w unwelcome_words) (split_on "_"%char (snake (fst p))))) names.
Proof.
  intros H snake m buf. exists (firsts [] (all_mentions m)). split; [|split].
  - destruct (firsts_distinct lower lower lower (all_mentions m) []) as [D _]. revert D. apply ForallOrdPairs_ind; [constructor|].
    intros a l F _ IH. constructor; [|exact IH]. revert F. apply Forall_impl. intros b E C. rewrite C, (eqv_refl _ ident_key_equiv) in E. discriminate.
  - intros n id I. apply firsts_incl, all_mentions_spec in I. exact I.
  - rewrite ut_check_issues. reflexivity.
Qed.
Print Assumptions C22_each_name_once.

(** A linter that has checked a model before remembers its names: in the next model it only reports names that the
    first one did not have, in that spelling or one that matches it as a key. So it never reports the same model twice. *)
Theorem C22_used_again :
  forall (H : Hasher) (snake : str -> str) (m1 m2 : model) (checked : list (str * unit)) (buf : list issue),
    let once := ut_check_state snake m1 (checked, buf) in
    exists new,
      snd (ut_check_state snake m2 once) = snd once ++ new
      /\ (forall i, In i new -> exists s p n id w, stored m2 s /\ linted p /\ name_at s p n id /\ has_unwelcome_word snake n w
            /\ i = Issue (lit "UnwelcomeTerms") Warning (unwelcome_message w) (Some id)
            /\ forall s1 p1 n1 id1, stored m1 s1 -> linted p1 -> name_at s1 p1 n1 id1 -> n1 <> n)
      /\ (m2 = m1 -> new = []).
Proof.
  intros H snake m1 m2 c buf once. destruct (second_check snake m1 m2 c buf) as (new & E & N). exists new.
  split; [exact E|]. split.
  - intros i I. destruct (N i I) as (s & p & n & id & w & S & L & A & W & -> & K). exists s, p, n, id, w.
    repeat (split; [assumption|]). split; [reflexivity|]. intros s1 p1 n1 id1 S1 L1 A1 ->.
    specialize (K s1 p1 n id1 S1 L1 A1). rewrite (eqv_refl _ ident_key_equiv) in K. discriminate K.
  - intros ->. destruct new as [|i l]; [reflexivity|]. destruct (N i (or_introl eq_refl)) as (s & p & n & id & w & S & L & A & _ & _ & K).
    specialize (K s p n id S L A). rewrite (eqv_refl _ ident_key_equiv) in K. discriminate K.
Qed.
Print Assumptions C22_used_again.

Definition C22_every_name_is_checked (considered : place -> Prop) : Prop :=
  forall (H : Hasher) (snake : str -> str) (m : model) s p n id w,
    stored m s -> considered p -> name_at s p n id -> has_unwelcome_word snake n w ->
    exists i, In i (fst (ut_check snake m [])) /\ i_message i = unwelcome_message w.

(** When no two names of the model differ only in case, every unwelcome name is reported. *)
Theorem C22_every_unwelcome_name_reported :
  forall (H : Hasher) (snake : str -> str) (m : model) s p n id w,
    (forall s p n id s' p' n' id', stored m s -> stored m s' -> name_at s p n id -> name_at s' p' n' id' ->
       ident_eqb n n' = true -> n = n') ->
    stored m s -> linted p -> name_at s p n id -> has_unwelcome_word snake n w ->
    exists i, In i (fst (ut_check snake m [])) /\ i_level i = Warning /\ i_message i = unwelcome_message w.
Proof.
  intros H snake m s p n id w U S L N W. destruct (C22_unwelcome_terms H snake m []) as (new & -> & _ & C).
  destruct (C s p n id S L N) as (n' & s' & p' & id' & E & S' & L' & N' & R). cbn [fst app].
  assert (n' = n) by eauto. subst n'. specialize (R w W). eexists. split; [exact R|]. split; reflexivity.
Qed.
Print Assumptions C22_every_unwelcome_name_reported.

(** Identifiers of resources, new names in renames and traits of list elements are never looked at. *)
Definition resource_with_bad_identifier : model :=
  Model V10 [] [(ex_id "R", Shape (ex_id "R") [] (KResource (Resource [(lit "master", ex_id "T")] None None None None None None [] [] [])))].
Theorem C22_identifiers_refuted : ~ C22_every_name_is_checked (fun _ => True).
Proof.
  intros C. specialize (C zero_hasher (fun s => s) resource_with_bad_identifier
    (snd (hd (ex_id "L", motd_date) (m_shapes resource_with_bad_identifier))) PIdentifier (lit "master") (ex_id "R") (lit "master")).
  destruct C as (i & I & _).
  - eexists; left; reflexivity.
  - exact I.
  - eapply na_identifier; [reflexivity|left; reflexivity].
  - split; [left; reflexivity|]. right; right; left; reflexivity.
  - vm_compute in I. exact I.
Qed.
Print Assumptions C22_identifiers_refuted.

Definition unwelcome_model : model :=
  Model V10 [] (map (fun s => (ts_id s, s))
    [Shape (ex_id "blacklist") [] (KList (MS "member" [] (api_id "String")));
     Shape (ex_id "S") [] (KStructure [ex_member "kill_master_node" (ex_id "blacklist")])]).
Example C22_ex :
  map (fun i => (i_message i, i_locus i)) (fst (@ut_check byte_hasher (fun s => s) unwelcome_model []))
  = [(unwelcome_message (lit "blacklist"), Some (ex_id "blacklist")); (unwelcome_message (lit "kill"), Some (ex_id "S"));
     (unwelcome_message (lit "master"), Some (ex_id "S"))].
Proof. vm_compute. reflexivity. Qed.
