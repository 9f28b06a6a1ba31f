(** Facts about the validators, the linters and the runners. *)
From Verif.Model Require Import Actions.
From Verif.Spec Require Import ActionsSpec.
From Verif.Proofs Require Import BaseFacts HashMapFacts.

Lemma In_shapes m s : In s (shapes m) <-> stored m s.
Proof.
  unfold shapes, hm_values, stored. rewrite in_map_iff. split.
  - intros ([k s'] & E & I). cbn in E. subst. eauto.
  - intros [k I]. exists (k, s). auto.
Qed.

(** ** Runners *)
Definition outcome (a : action) (m : model) : list issue * result unit := a_call a m (a_issues a).
Lemma run_loop_ok m ff acts : forall issues,
  (forall a, In a acts -> snd (outcome a m) = Ok tt) ->
  run_loop issues acts m ff
  = (map (fun a => Action [] (a_call a)) acts, Ok (issues ++ flat_map (fun a => fst (outcome a m)) acts)).
Proof.
  induction acts as [|a acts IH]; intros issues F; cbn; [rewrite app_nil_r; reflexivity|].
  assert (E := F a (or_introl eq_refl)). unfold outcome in *. destruct (a_call a m (a_issues a)) as [l r]. cbn in *. subst r.
  rewrite andb_false_r. rewrite IH by auto. rewrite app_assoc. reflexivity.
Qed.
Lemma run_loop_fail m ff e before a after : forall issues,
  (forall b, In b before -> snd (outcome b m) = Ok tt) ->
  snd (outcome a m) = e -> e <> Ok tt ->
  exists a', run_loop issues (before ++ a :: after) m ff
  = (map (fun b => Action [] (a_call b)) before ++ a' :: after, match e with Err x => Err x | _ => Panic end).
Proof.
  induction before as [|b before IH]; intros issues F E N; cbn.
  - unfold outcome in *. destruct (a_call a m (a_issues a)) as [l r]. cbn in *. subst r.
    destruct e as [[]| |]; [congruence| |]; eexists; reflexivity.
  - assert (Eb := F b (or_introl eq_refl)). unfold outcome in *. destruct (a_call b m (a_issues b)) as [l r]. cbn in *. subst r.
    rewrite andb_false_r. edestruct IH as [a' R]; [intros; apply F; right; eassumption|eassumption|assumption|].
    rewrite R. eexists. reflexivity.
Qed.
Lemma run_loop_fail_fast m acts : forall issues, run_loop issues acts m true = run_loop issues acts m false.
Proof.
  induction acts as [|a acts IH]; intros issues; cbn; [reflexivity|].
  destruct (a_call a m (a_issues a)) as [l []]; [|reflexivity|reflexivity]. rewrite IH. reflexivity.
Qed.

(** ** Validators *)
Section WithHasher.
  Context `{Hasher}.

  Definition fitsb (n : needs) (b : shape_kind) : bool :=
    match n with
    | NData => negb (is_service b || is_operation b || is_resource b)
    | NOperation => is_operation b
    | NResource => is_resource b
    end.
  Lemma fitsb_fits n b : fitsb n b = true <-> fits n b.
  Proof. destruct n, b; cbn; split; congruence || tauto. Qed.

  (** The references of a shape in the order they are checked. *)
  Definition opt_list {A} (o : option A) : list A := match o with Some a => [a] | None => [] end.
  Definition reference_list (b : shape_kind) : list (needs * shape_id) :=
    match b with
    | KList m | KSet m => [(NData, ms_target m)]
    | KMap k v => [(NData, ms_target k); (NData, ms_target v)]
    | KStructure ms | KUnion ms => map (fun e => (NData, ms_target (snd e))) ms
    | KService s => map (pair NOperation) (sv_operations s) ++ map (pair NResource) (sv_resources s)
    | KOperation o =>
        map (pair NData) (opt_list (op_input o)) ++ map (pair NData) (opt_list (op_output o)) ++ map (pair NData) (op_errors o)
    | KResource r =>
        map (fun e => (NData, snd e)) (rs_identifiers r)
        ++ map (pair NOperation) (opt_list (rs_create r)) ++ map (pair NOperation) (opt_list (rs_put r))
        ++ map (pair NOperation) (opt_list (rs_read r)) ++ map (pair NOperation) (opt_list (rs_update r))
        ++ map (pair NOperation) (opt_list (rs_delete r)) ++ map (pair NOperation) (opt_list (rs_list r))
        ++ map (pair NOperation) (rs_operations r) ++ map (pair NOperation) (rs_collection_operations r)
        ++ map (pair NResource) (rs_resources r)
    | _ => []
    end.
  Lemma In_opt_list {A} (o : option A) x : In x (opt_list o) <-> o = Some x.
  Proof. destruct o; cbn; split; intros; try tauto; try congruence; try (left; congruence). destruct H0; [congruence|tauto]. Qed.

  Lemma In_map_pair {A} (n : needs) (l : list A) n' t : In (n', t) (map (pair n) l) <-> n' = n /\ In t l.
  Proof. rewrite in_map_iff. split; [intros (x & E & I); injection E as <- <-; auto|intros [-> I]; eauto]. Qed.

  Lemma reference_list_spec b n t : In (n, t) (reference_list b) <-> refers b n t.
  Proof.
    split.
    - destruct b; cbn [reference_list]; intros I;
        repeat (rewrite ?in_app_iff, ?In_map_pair, ?In_opt_list in I);
        repeat match goal with
               | h : In _ [] |- _ => destruct h
               | h : In _ (_ :: _) |- _ => destruct h as [h|h]
               | h : (_, _) = (_, _) |- _ => injection h as <- <-
               | h : _ \/ _ |- _ => destruct h as [h|h]
               | h : _ /\ _ |- _ => destruct h as [-> h]
               | h : In _ (map _ _) |- _ => apply in_map_iff in h as ([? ?] & h & ?); cbn in h
               end; eauto using refers.
    - intros R. destruct R; cbn [reference_list];
        repeat (rewrite ?in_app_iff, ?In_map_pair, ?In_opt_list); cbn; try tauto.
      + apply in_map_iff. exists (n, m); auto.
      + apply in_map_iff. exists (n, m); auto.
      + left. apply in_map_iff. exists (n, t); auto.
  Qed.

  (** The verdict on one reference. *)
  Definition verdict (m : model) (r : needs * shape_id) : list level :=
    match model_shape m (snd r) with
    | Some x => if fitsb (fst r) (ts_body x) then [] else [Error]
    | None => if str_eqb (sid_ns (snd r)) (lit "smithy.api") then [] else [Warning]
    end.
  Definition simple_verdict (s : shape) : list level :=
    match ts_body s, ts_traits s with KSimple _, [] => [Info] | _, _ => [] end.

  Definition tag (id : shape_id) (l : level) : level * option shape_id := (l, Some id).
  Definition mark (i : issue) : level * option shape_id := (i_level i, i_locus i).

  Lemma check_type_only_marks id n t m : map mark (check_type_only id n t m) = map (tag id) (verdict m (NData, t)).
  Proof.
    unfold check_type_only, verdict. cbn [fst snd fitsb]. destruct (model_shape m t).
    - destruct (is_service _ || _ || _); reflexivity.
    - unfold prelude_namespace. destruct (str_eqb _ _); reflexivity.
  Qed.
  Lemma check_operation_only_marks id n t m : map mark (check_operation_only id t m n) = map (tag id) (verdict m (NOperation, t)).
  Proof.
    unfold check_operation_only, verdict. cbn [fst snd fitsb]. destruct (model_shape m t).
    - destruct (is_operation _); reflexivity.
    - unfold prelude_namespace. destruct (str_eqb _ _); reflexivity.
  Qed.
  Lemma check_resource_only_marks id n t m : map mark (check_resource_only id t m n) = map (tag id) (verdict m (NResource, t)).
  Proof.
    unfold check_resource_only, verdict. cbn [fst snd fitsb]. destruct (model_shape m t).
    - destruct (is_resource _); reflexivity.
    - unfold prelude_namespace. destruct (str_eqb _ _); reflexivity.
  Qed.
  Lemma map_flat_map {A B C} (f : B -> C) (g : A -> list B) l : map f (flat_map g l) = flat_map (fun x => map f (g x)) l.
  Proof. induction l as [|a l IH]; cbn; [reflexivity|]. rewrite map_app, IH. reflexivity. Qed.
  Lemma flat_map_map {A B C} (f : A -> B) (g : B -> list C) l : flat_map g (map f l) = flat_map (fun x => g (f x)) l.
  Proof. induction l as [|a l IH]; cbn; [reflexivity|]. rewrite IH. reflexivity. Qed.

  Lemma marks_flat {A} id m (n : needs) (g : A -> shape_id) (f : A -> list issue) l :
    (forall a, map mark (f a) = map (tag id) (verdict m (n, g a))) ->
    map mark (flat_map f l) = map (tag id) (flat_map (verdict m) (map (fun a => (n, g a)) l)).
  Proof.
    intros E. rewrite !map_flat_map. rewrite flat_map_map. induction l as [|a l IH]; cbn; [reflexivity|]. rewrite E, IH. reflexivity.
  Qed.
  Lemma marks_opt id m (n : needs) (f : shape_id -> list issue) o :
    (forall a, map mark (f a) = map (tag id) (verdict m (n, a))) ->
    map mark (opt_check o f) = map (tag id) (flat_map (verdict m) (map (pair n) (opt_list o))).
  Proof. intros E. destruct o; cbn; [rewrite E, app_nil_r; reflexivity|reflexivity]. Qed.

  Lemma ctr_shape_marks m s :
    map mark (ctr_shape m s)
    = map (tag (ts_id s)) (simple_verdict s ++ flat_map (verdict m) (reference_list (ts_body s))).
  Proof.
    unfold ctr_shape, simple_verdict. destruct (ts_body s) eqn:B; cbn [reference_list app].
    - unfold has_traits. destruct (ts_traits s); reflexivity.
    - cbn [flat_map]. rewrite app_nil_r. apply check_type_only_marks.
    - cbn [flat_map]. rewrite app_nil_r. apply check_type_only_marks.
    - cbn [flat_map]. rewrite app_nil_r, !map_app, !check_type_only_marks. reflexivity.
    - apply (marks_flat (ts_id s) m NData (fun e : str * member_shape => ms_target (snd e))). intros; apply check_type_only_marks.
    - apply (marks_flat (ts_id s) m NData (fun e : str * member_shape => ms_target (snd e))). intros; apply check_type_only_marks.
    - rewrite flat_map_app, !map_app. f_equal.
      + apply (marks_flat (ts_id s) m NOperation (fun t => t)). intros; apply check_operation_only_marks.
      + apply (marks_flat (ts_id s) m NResource (fun t => t)). intros; apply check_resource_only_marks.
    - rewrite !flat_map_app, !map_app. f_equal; [|f_equal].
      + apply (marks_opt (ts_id s)). intros; apply check_type_only_marks.
      + apply (marks_opt (ts_id s)). intros; apply check_type_only_marks.
      + apply (marks_flat (ts_id s) m NData (fun t => t)). intros; apply check_type_only_marks.
    - rewrite !flat_map_app, !map_app.
      repeat match goal with
             | |- (_ ++ _ = _ ++ _)%list => f_equal
             | |- map mark (opt_check _ _) = _ => apply (marks_opt (ts_id s)); intros; apply check_operation_only_marks
             end.
      + apply (marks_flat (ts_id s) m NData (fun e : str * shape_id => snd e)). intros; apply check_type_only_marks.
      + apply (marks_flat (ts_id s) m NOperation (fun t => t)). intros; apply check_operation_only_marks.
      + apply (marks_flat (ts_id s) m NOperation (fun t => t)). intros; apply check_operation_only_marks.
      + apply (marks_flat (ts_id s) m NResource (fun t => t)). intros; apply check_resource_only_marks.
    - reflexivity.
  Qed.

  Lemma offence_spec m s l :
    In l (simple_verdict s ++ flat_map (verdict m) (reference_list (ts_body s))) <-> offence m s l.
  Proof.
    rewrite in_app_iff, in_flat_map. split.
    - intros [I|([n t] & R & I)].
      + unfold simple_verdict in I. destruct (ts_body s) eqn:B; try destruct I. destruct (ts_traits s) eqn:T; [|destruct I].
        destruct I as [<-|[]]. eapply off_synonym; eauto.
      + apply reference_list_spec in R. unfold verdict in I. cbn [fst snd] in I. destruct (model_shape m t) eqn:G.
        * destruct (fitsb n (ts_body s0)) eqn:F; [destruct I|]; destruct I as [<-|[]]. eapply off_kind; eauto.
          rewrite <- fitsb_fits, F. discriminate.
        * destruct (str_eqb _ _) eqn:F; [destruct I|]; destruct I as [<-|[]]. eapply off_missing; eauto.
          intros E. rewrite E, str_eqb_refl in F. discriminate.
    - intros O. destruct O as [n t x R G F|n t R G F|p B T].
      + right. exists (n, t). split; [apply reference_list_spec, R|]. unfold verdict. cbn [fst snd]. rewrite G.
        rewrite <- fitsb_fits in F. destruct (fitsb n (ts_body x)); [congruence|left; reflexivity].
      + right. exists (n, t). split; [apply reference_list_spec, R|]. unfold verdict. cbn [fst snd]. rewrite G.
        destruct (str_eqb _ _) eqn:E; [|left; reflexivity]. apply str_eqb_eq in E. contradiction.
      + left. unfold simple_verdict. rewrite B, T. left; reflexivity.
  Qed.

  Lemma ctr_issues m l id :
    (exists i, In i (flat_map (ctr_shape m) (shapes m)) /\ i_level i = l /\ i_locus i = Some id)
    <-> exists s, stored m s /\ ts_id s = id /\ offence m s l.
  Proof.
    split.
    - intros (i & I & <- & L). apply in_flat_map in I as (s & Is & I). apply In_shapes in Is.
      assert (M : In (mark i) (map mark (ctr_shape m s))) by (apply in_map, I).
      rewrite ctr_shape_marks in M. apply in_map_iff in M as (l & E & O). apply offence_spec in O.
      unfold mark, tag in E. rewrite L in E. injection E as <- <-. eauto.
    - intros (s & Is & <- & O). apply offence_spec in O. apply (in_map (tag (ts_id s))) in O.
      rewrite <- ctr_shape_marks in O. apply in_map_iff in O as (i & E & I). injection E as E1 E2. exists i.
      split; [apply in_flat_map; exists s; split; [apply In_shapes, Is|exact I]|auto].
  Qed.

  Lemma ctr_no_nowhere m i : In i (flat_map (ctr_shape m) (shapes m)) -> i_locus i <> None /\ i_reporter i = ctr_label.
  Proof.
    intros I. apply in_flat_map in I as (s & _ & I). split.
    - apply (in_map mark) in I. rewrite ctr_shape_marks in I. apply in_map_iff in I as (l & E & _). unfold mark, tag in E. congruence.
    - revert I. unfold ctr_shape, opt_check, check_type_only, check_operation_only, check_resource_only.
      destruct (ts_body s); cbn; intros I;
      repeat (rewrite ?in_app_iff, ?in_flat_map in I);
      repeat (match goal with
              | h : In _ (_ :: _) |- _ => destruct h as [<-|h]
              | h : In _ [] |- _ => destruct h
              | h : _ \/ _ |- _ => destruct h as [h|h]
              | h : exists _, _ |- _ => destruct h as [? [? h]]
              | h : In _ (match ?x with _ => _ end) |- _ => destruct x
              | h : In _ (if ?x then _ else _) |- _ => destruct x
              end); try reflexivity; try contradiction.
  Qed.
End WithHasher.

(** ** Linters *)
Section Lint.
  Context `{Hasher}.
  Variables (camel mixed snake : str -> str).
  Local Notation case_of c := (match c with UpperCamel => camel | LowerCamel => mixed end).

  Lemma In_hm_keys {K V} (m : list (K * V)) k : In k (hm_keys m) <-> exists v, In (k, v) m.
  Proof.
    unfold hm_keys. rewrite in_map_iff. split; [intros ([k' v] & E & I); cbn in E; subst; eauto|].
    intros [v I]. exists (k, v). auto.
  Qed.
  Lemma form_dec (f : str -> str) n : negb (str_eqb (f n) n) = true <-> f n <> n.
  Proof.
    destruct (str_eqb (f n) n) eqn:E; cbn; split; try congruence.
    - apply str_eqb_eq in E. contradiction.
    - intros _ C. rewrite C, str_eqb_refl in E. discriminate.
  Qed.

  Definition is_info (i : issue) (id : shape_id) : Prop :=
    i_level i = Info /\ i_locus i = Some id /\ i_reporter i = nc_label.

  Lemma nc_shape_name_spec id r id' :
    (exists i, In i (nc_shape_name camel id r) /\ is_info i id') <-> camel (sid_name id) <> sid_name id /\ id' = id.
  Proof.
    unfold nc_shape_name. rewrite <- form_dec. destruct (negb _); cbn.
    - split; [intros (i & [<-|[]] & _ & L & _); cbn in L; split; congruence|]. intros [_ ->]. eexists. split; [left; reflexivity|]. repeat split.
    - split; [intros (i & [] & _)|intros [C _]; discriminate].
  Qed.
  Lemma nc_trait_name_spec id id' :
    (exists i, In i (nc_trait_name mixed id) /\ is_info i id') <-> mixed (sid_name id) <> sid_name id /\ id' = id.
  Proof.
    unfold nc_trait_name. rewrite <- form_dec. destruct (negb _); cbn.
    - split; [intros (i & [<-|[]] & _ & L & _); cbn in L; split; congruence|]. intros [_ ->]. eexists. split; [left; reflexivity|]. repeat split.
    - split; [intros (i & [] & _)|intros [C _]; discriminate].
  Qed.
  Lemma nc_member_name_spec n p id' :
    (exists i, In i (nc_member_name mixed n p) /\ is_info i id') <-> mixed n <> n /\ id' = p.
  Proof.
    unfold nc_member_name. rewrite <- form_dec. destruct (negb _); cbn.
    - split; [intros (i & [<-|[]] & _ & L & _); cbn in L; split; congruence|]. intros [_ ->]. eexists. split; [left; reflexivity|]. repeat split.
    - split; [intros (i & [] & _)|intros [C _]; discriminate].
  Qed.
  Lemma nc_applied_spec ts id' :
    (exists i, In i (nc_applied mixed ts) /\ is_info i id')
    <-> exists v, In (id', v) ts /\ mixed (sid_name id') <> sid_name id'.
  Proof.
    unfold nc_applied. split.
    - intros (i & I & P). apply in_flat_map in I as (t & It & I). apply In_hm_keys in It as [v It].
      destruct (nc_trait_name_spec t id') as [A _]. destruct A as [A ->]; eauto.
    - intros (v & I & N). destruct (nc_trait_name_spec id' id') as [_ A]. destruct A as (i & Ii & P); [auto|].
      exists i. split; [|assumption]. apply in_flat_map. exists id'. split; [apply In_hm_keys; eauto|assumption].
  Qed.

  Lemma ex_app (P : issue -> Prop) a b :
    (exists i, In i (a ++ b) /\ P i) <-> (exists i, In i a /\ P i) \/ (exists i, In i b /\ P i).
  Proof.
    split.
    - intros (i & I & Q). apply in_app_iff in I as [I|I]; eauto.
    - intros [(i & I & Q)|(i & I & Q)]; exists i; rewrite in_app_iff; auto.
  Qed.
  Lemma ex_flat {A} (P : issue -> Prop) (f : A -> list issue) l :
    (exists i, In i (flat_map f l) /\ P i) <-> exists a, In a l /\ exists i, In i (f a) /\ P i.
  Proof.
    split.
    - intros (i & I & Q). apply in_flat_map in I as (a & Ia & I). eauto 6.
    - intros (a & Ia & i & I & Q). exists i. rewrite in_flat_map. eauto.
  Qed.

  Lemma has_trait_dec id ts : has_trait id ts = true <-> trait_named id ts <> None.
  Proof. unfold has_trait, trait_named, hm_contains. destruct (hm_get _ id ts); split; congruence. Qed.

  Lemma nc_shape_spec s id :
    (exists i, In i (nc_shape camel mixed s) /\ is_info i id)
    <-> exists p c n, must_follow s p c n id /\ linted p /\ case_of c n <> n.
  Proof.
    unfold nc_shape. rewrite !ex_app, nc_applied_spec.
    assert (MB : (exists i, In i (match ts_body s with
        | KStructure ms | KUnion ms => flat_map (fun e => nc_member_name mixed (ms_id (snd e)) (ts_id s)
                                ++ nc_shape_name camel (ms_target (snd e)) true ++ nc_applied mixed (ms_traits (snd e))) ms
        | _ => [] end) /\ is_info i id)
      <-> exists n m, In (n, m) (shape_members (ts_body s))
                      /\ ((mixed (ms_id m) <> ms_id m /\ id = ts_id s)
                          \/ (camel (sid_name (ms_target m)) <> sid_name (ms_target m) /\ id = ms_target m)
                          \/ (exists v, In (id, v) (ms_traits m) /\ mixed (sid_name id) <> sid_name id))).
    { assert (G : forall ms : members,
        (exists i, In i (flat_map (fun e => nc_member_name mixed (ms_id (snd e)) (ts_id s)
                                ++ nc_shape_name camel (ms_target (snd e)) true ++ nc_applied mixed (ms_traits (snd e))) ms) /\ is_info i id)
        <-> exists n m, In (n, m) ms
                      /\ ((mixed (ms_id m) <> ms_id m /\ id = ts_id s)
                          \/ (camel (sid_name (ms_target m)) <> sid_name (ms_target m) /\ id = ms_target m)
                          \/ (exists v, In (id, v) (ms_traits m) /\ mixed (sid_name id) <> sid_name id))).
      { intros ms. rewrite ex_flat. split.
        - intros ([n m] & I & Q). exists n, m. split; [assumption|].
          rewrite !ex_app, nc_member_name_spec, nc_shape_name_spec, nc_applied_spec in Q. exact Q.
        - intros (n & m & I & Q). exists (n, m). split; [assumption|].
          rewrite !ex_app, nc_member_name_spec, nc_shape_name_spec, nc_applied_spec. exact Q. }
      destruct (ts_body s); cbn [shape_members]; try apply G;
        (split; [intros (? & [] & _)|intros (? & ? & [] & _)]). }
    rewrite MB. clear MB. split.
    - intros [I|[(v & I & N)|(n & m & I & [[N E]|[[N E]|(v & It & N)]])]].
      + destruct (has_trait trait_trait (ts_traits s)) eqn:T.
        * apply nc_trait_name_spec in I as [N ->]. exists PDefinition, LowerCamel, (sid_name (ts_id s)).
          split; [apply mf_trait; apply has_trait_dec, T|]. split; [exact Logic.I|exact N].
        * apply nc_shape_name_spec in I as [N ->]. exists PDefinition, UpperCamel, (sid_name (ts_id s)).
          split; [apply mf_shape; intros C; apply has_trait_dec in C; unfold trait_trait in T; congruence|]. split; [exact Logic.I|exact N].
      + exists PTrait, LowerCamel, (sid_name id). split; [apply mf_applied; [tauto|econstructor; eauto]|]. split; [exact Logic.I|exact N].
      + subst id. exists PMember, LowerCamel, (ms_id m). split; [econstructor; eauto|]. split; [exact Logic.I|exact N].
      + subst id. exists PTarget, UpperCamel, (sid_name (ms_target m)). split; [apply mf_target; econstructor; eauto|]. split; [exact Logic.I|exact N].
      + exists PMemberTrait, LowerCamel, (sid_name id). split; [apply mf_applied; [tauto|eapply ia_member_trait; eauto]|]. split; [exact Logic.I|exact N].
    - intros (p & c & n & M & L & N). destruct M as [D|D|p t P A|t A|n m I].
      + left. destruct (has_trait trait_trait (ts_traits s)) eqn:T; [apply has_trait_dec in T; contradiction|].
        apply nc_shape_name_spec. auto.
      + left. destruct (has_trait trait_trait (ts_traits s)) eqn:T.
        * apply nc_trait_name_spec. auto.
        * exfalso. apply has_trait_dec in D. unfold trait_trait in T. congruence.
      + inversion A; subst; try (destruct P as [P|[P|P]]; discriminate); try destruct L.
        * right; left. eauto.
        * right; right. eauto 10.
      + inversion A; subst. right; right. eauto 10.
      + right; right. eauto 10.
  Qed.
  Lemma nc_shape_infos s i : In i (nc_shape camel mixed s) -> exists id, is_info i id.
  Proof.
    unfold nc_shape, nc_applied, nc_trait_name, nc_shape_name, nc_member_name. intros I.
    destruct (ts_body s); 
    repeat match goal with
           | h : In _ (_ ++ _) |- _ => apply in_app_iff in h as [h|h]
           | h : In _ (flat_map _ _) |- _ => apply in_flat_map in h as (? & ? & h)
           | h : In _ (if ?x then _ else _) |- _ => destruct x
           | h : In _ (_ :: _) |- _ => destruct h as [<-|h]
           | h : In _ [] |- _ => destruct h
           end; (eexists; split; [reflexivity|split; reflexivity]).
  Qed.

  (** *** UnwelcomeTerms *)
  Notation ut_state := (list (str * unit) * list issue)%type.
  Definition id_names (id : shape_id) : list str := ns_split (sid_ns id) ++ [sid_name id] ++ opt_list (sid_member id).
  Definition id_mentions (id : shape_id) : list (str * shape_id) := map (fun n => (n, id)) (id_names id).
  Definition member_mentions (s : shape) (m : member_shape) : list (str * shape_id) :=
    [(ms_id m, ts_id s)] ++ id_mentions (ms_target m) ++ flat_map id_mentions (hm_keys (ms_traits m)).
  Definition mentions (s : shape) : list (str * shape_id) :=
    id_mentions (ts_id s) ++ flat_map id_mentions (hm_keys (ts_traits s))
    ++ match ts_body s with
       | KStructure ms | KUnion ms => id_mentions (ts_id s) ++ flat_map (fun e => member_mentions s (snd e)) ms
       | _ => []
       end.
  Definition ut_step (st : ut_state) (p : str * shape_id) : ut_state := ut_identifier snake (snd p) st (fst p).

  Lemma ut_shape_id_fold st id : ut_shape_id snake st id = fold_left ut_step (id_mentions id) st.
  Proof.
    unfold ut_shape_id, id_mentions, id_names. rewrite !map_app, !fold_left_app. cbn [map fold_left].
    assert (E : fold_left ut_step (map (fun n => (n, id)) (ns_split (sid_ns id))) st
                = fold_left (ut_identifier snake id) (ns_split (sid_ns id)) st).
    { generalize (ns_split (sid_ns id)) as l. intros l. revert st. induction l as [|x l IH]; intros st; cbn; [reflexivity|]. apply IH. }
    rewrite E. destruct (sid_member id); reflexivity.
  Qed.
  Lemma fold_flat {A} (f : ut_state -> A -> ut_state) (g : A -> list (str * shape_id)) l :
    (forall st a, f st a = fold_left ut_step (g a) st) ->
    forall st, fold_left f l st = fold_left ut_step (flat_map g l) st.
  Proof.
    intros E. induction l as [|a l IH]; intros st; cbn; [reflexivity|]. rewrite fold_left_app, E. apply IH.
  Qed.
  Lemma ut_shape_fold st s : ut_shape snake st s = fold_left ut_step (mentions s) st.
  Proof.
    unfold ut_shape, mentions. rewrite !fold_left_app, ut_shape_id_fold.
    rewrite (fold_flat (ut_shape_id snake) id_mentions) by (intros; apply ut_shape_id_fold).
    assert (M : forall (ms : members) st, fold_left (fun st e =>
                       fold_left (ut_shape_id snake) (hm_keys (ms_traits (snd e)))
                         (ut_shape_id snake (ut_identifier snake (ts_id s) st (ms_id (snd e))) (ms_target (snd e)))) ms st
              = fold_left ut_step (flat_map (fun e => member_mentions s (snd e)) ms) st).
    { intros ms. apply fold_flat. intros st' [k m]. unfold member_mentions. cbn [snd app fold_left].
      rewrite fold_left_app, ut_shape_id_fold, (fold_flat (ut_shape_id snake) id_mentions) by (intros; apply ut_shape_id_fold). reflexivity. }
    destruct (ts_body s); try reflexivity; rewrite fold_left_app, ut_shape_id_fold; apply M.
  Qed.
  Definition all_mentions (m : model) : list (str * shape_id) := flat_map mentions (shapes m).
  Lemma ut_check_fold m st : ut_check_state snake m st = fold_left ut_step (all_mentions m) st.
  Proof. apply fold_flat. intros; apply ut_shape_fold. Qed.

  (** The first mention of every name (names match as [HashSet] keys), given those already checked. *)
  Fixpoint firsts (checked : list (str * unit)) (l : list (str * shape_id)) : list (str * shape_id) :=
    match l with
    | [] => []
    | (n, id) :: l' =>
        if hm_contains ident_key_eqb n checked then firsts checked l'
        else (n, id) :: firsts (hm_insert ident_key_eqb n tt checked) l'
    end.
  Definition report (p : str * shape_id) : list issue :=
    map (fun w => warning_at ut_label (ut_message w) (snd p)) (filter is_unwelcome_term (split_words snake (fst p))).
  Lemma ut_fold_issues l : forall checked issues,
    snd (fold_left ut_step l (checked, issues)) = issues ++ flat_map report (firsts checked l).
  Proof.
    induction l as [|[n id] l IH]; intros checked issues; cbn [fold_left firsts flat_map]; [rewrite app_nil_r; reflexivity|].
    unfold ut_step at 2, ut_identifier. cbn [fst snd]. destruct (hm_contains _ n checked); cbn [negb]; rewrite IH; [reflexivity|].
    cbn [flat_map]. rewrite app_assoc. reflexivity.
  Qed.
  Lemma firsts_incl l : forall checked, incl (firsts checked l) l.
  Proof.
    induction l as [|[n id] l IH]; intros checked x I; cbn in *; [assumption|].
    destruct (hm_contains _ _ _); [right; eapply IH; eauto|]. destruct I as [I|I]; [left; assumption|right; eapply IH; eauto].
  Qed.
  Lemma firsts_covers l : forall checked n id, In (n, id) l ->
    hm_contains ident_key_eqb n checked = true
    \/ exists n' id', In (n', id') (firsts checked l) /\ ident_key_eqb n' n = true.
  Proof.
    induction l as [|[n0 id0] l IH]; intros checked n id I; cbn in *; [destruct I|].
    destruct I as [I|I].
    - injection I as -> ->. destruct (hm_contains ident_key_eqb n checked) eqn:C; [left; reflexivity|]. right. exists n, id.
      split; [left; reflexivity|]. apply (eqv_refl _ ident_key_equiv).
    - destruct (hm_contains ident_key_eqb n0 checked) eqn:C; [eapply IH; eauto|].
      destruct (IH (hm_insert ident_key_eqb n0 tt checked) n id I) as [D|(n' & id' & D & E)].
      + unfold hm_contains in D. rewrite hm_get_insert in D by auto with equivb.
        destruct (ident_key_eqb n0 n) eqn:E; [right; exists n0, id0; split; [left; reflexivity|assumption]|left; exact D].
      + right. exists n', id'. split; [right; assumption|assumption].
  Qed.
  Lemma firsts_distinct l : forall checked,
    ForallOrdPairs (fun a b => ident_key_eqb (fst a) (fst b) = false) (firsts checked l)
    /\ Forall (fun a => hm_contains ident_key_eqb (fst a) checked = false) (firsts checked l).
  Proof.
    induction l as [|[n id] l IH]; intros checked; cbn; [split; constructor|].
    destruct (hm_contains ident_key_eqb n checked) eqn:C; [apply IH|].
    destruct (IH (hm_insert ident_key_eqb n tt checked)) as [A B].
    assert (B' : Forall (fun a => hm_contains ident_key_eqb (fst a) checked = false /\ ident_key_eqb n (fst a) = false)
                   (firsts (hm_insert ident_key_eqb n tt checked) l)).
    { revert B. apply Forall_impl. intros [k i] D. cbn in *. unfold hm_contains in *. rewrite hm_get_insert in D by auto with equivb.
      destruct (ident_key_eqb n k); [discriminate|auto]. }
    split; constructor; auto.
    - revert B'. apply Forall_impl. tauto.
    - revert B'. apply Forall_impl. tauto.
  Qed.

  Lemma In_id_mentions id n i : In (n, i) (id_mentions id) <-> i = id /\ part_of id n.
  Proof.
    unfold id_mentions, id_names. rewrite in_map_iff. split.
    - intros (x & E & I). injection E as -> ->. split; [reflexivity|]. rewrite !in_app_iff, In_opt_list in I.
      destruct I as [I|[[<-|[]]|I]]; eauto using part_of.
    - intros [-> P]. exists n. split; [reflexivity|]. rewrite !in_app_iff, In_opt_list.
      destruct P; cbn; auto.
  Qed.
  Lemma In_flat_id_mentions ts n i : In (n, i) (flat_map id_mentions (hm_keys ts)) <-> exists v : option value, In (i, v) ts /\ part_of i n.
  Proof.
    rewrite in_flat_map. split.
    - intros (t & It & I). apply In_hm_keys in It as [v It]. apply In_id_mentions in I as [-> P]. eauto.
    - intros (v & I & P). exists i. split; [apply In_hm_keys; eauto|apply In_id_mentions; auto].
  Qed.
  Lemma mentions_spec s n i : In (n, i) (mentions s) <-> exists p, linted p /\ name_at s p n i.
  Proof.
    unfold mentions. rewrite !in_app_iff, In_id_mentions, In_flat_id_mentions.
    assert (MB : In (n, i) (match ts_body s with
       | KStructure ms | KUnion ms => id_mentions (ts_id s) ++ flat_map (fun e => member_mentions s (snd e)) ms
       | _ => [] end) -> (i = ts_id s /\ part_of (ts_id s) n) \/
         exists k m, In (k, m) (shape_members (ts_body s)) /\ In (n, i) (member_mentions s m)).
    { destruct (ts_body s); cbn [shape_members]; intros I; try destruct I as [];
      apply in_app_iff in I as [I|I]; try (left; apply In_id_mentions; assumption);
      right; apply in_flat_map in I as ([k m] & I & J); eauto. }
    assert (BM : (exists k m, In (k, m) (shape_members (ts_body s)) /\ In (n, i) (member_mentions s m)) ->
       In (n, i) (match ts_body s with
       | KStructure ms | KUnion ms => id_mentions (ts_id s) ++ flat_map (fun e => member_mentions s (snd e)) ms
       | _ => [] end)).
    { intros (k & m & I & J). destruct (ts_body s); cbn [shape_members] in I; try destruct I as [];
      apply in_app_iff; right; apply in_flat_map; exists (k, m); auto. }
    split.
    - intros [[-> P]|[(v & I & P)|I]].
      + exists PDefinition. split; [exact Logic.I|]. econstructor; eauto; constructor.
      + exists PTrait. split; [exact Logic.I|]. econstructor; eauto; econstructor; eauto.
      + apply MB in I as [[-> P]|(k & m & I & J)].
        * exists PDefinition. split; [exact Logic.I|]. econstructor; eauto; constructor.
        * unfold member_mentions in J. rewrite !in_app_iff, In_id_mentions, In_flat_id_mentions in J.
          destruct J as [[J|[]]|[[-> P]|(v & J & P)]].
          -- injection J as <- <-. exists PMember. split; [exact Logic.I|]. eapply na_member; eauto.
          -- exists PTarget. split; [exact Logic.I|]. econstructor; eauto; econstructor; eauto.
          -- exists PMemberTrait. split; [exact Logic.I|]. econstructor; eauto. eapply ia_member_trait; eauto.
    - intros (p & L & N). destruct N as [p i n A P|k m I|r n t B I|v i n B I]; try destruct L.
      + destruct A as [|t v I|k m I|k m t v I J|m t v E J]; try destruct L.
        * left; auto.
        * right; left; eauto.
        * right; right. apply BM. exists k, m. split; [assumption|]. unfold member_mentions.
          rewrite !in_app_iff, In_id_mentions. auto.
        * right; right. apply BM. exists k, m. split; [assumption|]. unfold member_mentions.
          rewrite !in_app_iff, In_flat_id_mentions. eauto.
      + right; right. apply BM. exists k, m. split; [assumption|]. unfold member_mentions. left; reflexivity.
  Qed.
  Lemma all_mentions_spec m n i : In (n, i) (all_mentions m) <-> exists s p, stored m s /\ linted p /\ name_at s p n i.
  Proof.
    unfold all_mentions. rewrite in_flat_map. split.
    - intros (s & Is & I). apply In_shapes in Is. apply mentions_spec in I as (p & L & N). eauto.
    - intros (s & p & Is & L & N). exists s. split; [apply In_shapes, Is|apply mentions_spec; eauto].
  Qed.

  Lemma is_unwelcome_term_spec w : is_unwelcome_term w = true <-> In w unwelcome_words.
  Proof.
    unfold is_unwelcome_term, mem_str. rewrite existsb_exists. change unwelcome with unwelcome_words. split.
    - intros (x & I & E). apply str_eqb_eq in E. subst. exact I.
    - intros I. exists w. split; [assumption|apply str_eqb_refl].
  Qed.
  Lemma In_report i n id : In i (report (n, id)) <-> exists w, has_unwelcome_word snake n w /\ i = warning_at ut_label (ut_message w) id.
  Proof.
    unfold report, has_unwelcome_word. cbn [fst snd]. rewrite in_map_iff. split.
    - intros (w & <- & I). apply filter_In in I as [I U]. apply is_unwelcome_term_spec in U. eauto.
    - intros (w & [I U] & ->). exists w. split; [reflexivity|]. apply filter_In. split; [exact I|apply is_unwelcome_term_spec, U].
  Qed.
  Lemma ut_check_issues m buf :
    ut_check snake m buf = (buf ++ flat_map report (firsts [] (all_mentions m)), Ok tt).
  Proof. unfold ut_check. rewrite ut_check_fold, ut_fold_issues. reflexivity. Qed.
End Lint.
