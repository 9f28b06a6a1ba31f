(** The issues of validators and linters, in full. *)
From Verif.Model Require Import Actions.
From Verif.Spec Require Import MessageSpec.
From Verif.Proofs Require Import BaseFacts HashMapFacts ActionFacts.

Section Types.
  Context `{H : Hasher}.
  (** What one reference gives rise to. *)
  Definition answer (m : model) (s : shape_id) (n : needs) (what : str) (t : shape_id) (i : issue) : Prop :=
    (exists x, model_shape m t = Some x /\ ~ fits n (ts_body x)
       /\ i = Issue (lit "CorrectTypeReferences") Error (wrong_kind s n what) (Some s))
    \/ (model_shape m t = None /\ sid_ns t <> lit "smithy.api"
       /\ i = Issue (lit "CorrectTypeReferences") Warning (no_such_shape s n what t) (Some s)).
  Ltac solve_check m t :=
    unfold prelude_namespace; destruct (model_shape m t) as [x|] eqn:E;
    [ split;
      [ intros I; left; exists x; split; [reflexivity|]; destruct (ts_body x);
        cbn [is_service is_operation is_resource orb negb] in I;
        first [ destruct I; fail | destruct I as [<-|[]]; (split; [unfold fits; tauto|reflexivity]) ]
      | intros [(y & Y & F & ->)|(Y & _)]; [|discriminate Y]; injection Y as <-; destruct (ts_body x);
        cbn [is_service is_operation is_resource orb negb]; unfold fits in F; try tauto; left; reflexivity ]
    | destruct (str_eqb (sid_ns t) (lit "smithy.api")) eqn:N; cbn [negb];
      [ apply str_eqb_eq in N; split; [intros []|intros [(y & Y & _)|(_ & F & _)]; [discriminate Y|contradiction]]
      | apply str_eqb_neq in N; split;
        [ intros [<-|[]]; right; split; [reflexivity|]; split; [exact N|reflexivity]
        | intros [(y & Y & _)|(_ & _ & ->)]; [discriminate Y|left; reflexivity] ] ] ].
  Lemma type_only_spec s what t m i : In i (check_type_only s what t m) <-> answer m s NData what t i.
  Proof.
    unfold check_type_only, answer, error_at, warning_at, ctr_label, wrong_kind, no_such_shape.
    rewrite <- (app_assoc (sid_display s)). solve_check m t.
  Qed.
  Lemma operation_only_spec s what t m i : In i (check_operation_only s t m what) <-> answer m s NOperation what t i.
  Proof. unfold check_operation_only, answer, error_at, warning_at, ctr_label, wrong_kind, no_such_shape. solve_check m t. Qed.
  Lemma resource_only_spec s what t m i : In i (check_resource_only s t m what) <-> answer m s NResource what t i.
  Proof. unfold check_resource_only, answer, error_at, warning_at, ctr_label, wrong_kind, no_such_shape. solve_check m t. Qed.
  Lemma opt_check_In o f i : In i (opt_check o f) <-> exists t, o = Some t /\ In i (f t).
  Proof.
    destruct o; cbn; [|split; [intros []|intros (t & E & _); discriminate E]].
    split; [eauto|intros (t & E & I); injection E as <-; exact I].
  Qed.
  Lemma answers m s i :
    In i (ctr_shape m s)
    <-> (exists p, ts_body s = KSimple p /\ ts_traits s = []
           /\ i = Issue (lit "CorrectTypeReferences") Info
                (lit "The simple shape (" ++ sid_display (ts_id s)
                 ++ lit ") is simply a synonym, did you mean to add any constraint traits?") (Some (ts_id s)))
        \/ exists n what t, refers_as (ts_body s) n what t /\ answer m (ts_id s) n what t i.
  Proof.
    unfold ctr_shape. split.
    - destruct (ts_body s) eqn:B; intros I;
        repeat match goal with
          | h : In _ (_ ++ _) |- _ => apply in_app_iff in h as [h|h]
          | h : In _ [] |- _ => destruct h
          | h : In _ (flat_map _ _) |- _ => apply in_flat_map in h as (? & ? & h)
          | h : In _ (opt_check _ _) |- _ => apply opt_check_In in h as (? & ? & h)
          | h : In _ (check_type_only _ _ _ _) |- _ => apply type_only_spec in h
          | h : In _ (check_operation_only _ _ _ _) |- _ => apply operation_only_spec in h
          | h : In _ (check_resource_only _ _ _ _) |- _ => apply resource_only_spec in h
          | h : In ?e _ |- _ => is_var e; lazymatch type of e with (_ * _)%type => destruct e; cbn [fst snd] in * end
          end; try (right; do 3 eexists; split; [econstructor; eassumption|eassumption]; fail);
        try (right; do 3 eexists; split; [|eassumption]; eauto using refers_as; fail).
      left. eexists. split; [reflexivity|]. unfold has_traits in I. destruct (ts_traits s); [|destruct I].
      destruct I as [<-|[]]. split; reflexivity.
    - intros [(p & B & T & ->)|(n & what & t & R & A)].
      + rewrite B, T. left. reflexivity.
      + remember (ts_body s) as b eqn:B. clear B. destruct R;
          match goal with
          | |- In _ (check_type_only _ _ _ _) => apply type_only_spec; exact A
          | |- _ => idtac
          end; rewrite ?in_app_iff, ?in_flat_map, ?opt_check_In;
          first [ apply type_only_spec in A | apply operation_only_spec in A | apply resource_only_spec in A ];
          solve [ intuition eauto ].
  Qed.
  Lemma type_issues m s i : In i (ctr_shape m s) <-> type_issue m s i.
  Proof.
    rewrite answers. split.
    - intros [(p & B & T & ->)|(n & what & t & R & [(x & E & F & ->)|(E & N & ->)])].
      + eapply ti_synonym; eassumption.
      + eapply ti_kind; eassumption.
      + eapply ti_missing; eassumption.
    - intros [n what t x R E F|n what t R E N|p B T].
      + right. exists n, what, t. split; [exact R|]. left. eauto.
      + right. exists n, what, t. split; [exact R|]. right. auto.
      + left. eauto.
  Qed.
End Types.

Section Names.
  Context `{H : Hasher}.
  Variables (camel mixed : str -> str).
  Definition named_badly (p : place) (c : convention) (n : str) (id : shape_id) (i : issue) : Prop :=
    ~ in_form camel mixed c n
    /\ i = Issue (lit "NamingConventions") Info (naming_message p c (proper camel mixed c n)) (Some id).
  Lemma trait_name_In p id i : p <> PMember ->
    In i (nc_trait_name mixed id) <-> named_badly p LowerCamel (sid_name id) id i.
  Proof.
    intros P. unfold nc_trait_name, named_badly, in_form, info_at, nc_label.
    destruct (str_eqb (mixed (sid_name id)) (sid_name id)) eqn:E; cbn [negb].
    - apply str_eqb_eq in E. split; [intros []|intros [N _]; contradiction].
    - apply str_eqb_neq in E. split; [intros [<-|[]]; split; [exact E|]|intros [_ ->]; left]; destruct p; try contradiction; reflexivity.
  Qed.
  Lemma member_name_In n id i : In i (nc_member_name mixed n id) <-> named_badly PMember LowerCamel n id i.
  Proof.
    unfold nc_member_name, named_badly, in_form, info_at, nc_label.
    destruct (str_eqb (mixed n) n) eqn:E; cbn [negb].
    - apply str_eqb_eq in E. split; [intros []|intros [N _]; contradiction].
    - apply str_eqb_neq in E. split; [intros [<-|[]]; split; [exact E|reflexivity]|intros [_ ->]; left; reflexivity].
  Qed.
  Lemma shape_name_In (r : bool) id i :
    In i (nc_shape_name camel id r) <-> named_badly (if r then PTarget else PDefinition) UpperCamel (sid_name id) id i.
  Proof.
    unfold nc_shape_name, named_badly, in_form, info_at, nc_label.
    destruct (str_eqb (camel (sid_name id)) (sid_name id)) eqn:E; cbn [negb].
    - apply str_eqb_eq in E. split; [intros []|intros [N _]; contradiction].
    - apply str_eqb_neq in E. split; [intros [<-|[]]; split; [exact E|]|intros [_ ->]; left]; destruct r; reflexivity.
  Qed.
  Lemma applied_In p ts i : p <> PMember ->
    In i (nc_applied mixed ts) <-> exists t v, In (t, v) ts /\ named_badly p LowerCamel (sid_name t) t i.
  Proof.
    intros P. unfold nc_applied. rewrite in_flat_map. split.
    - intros (t & I & K). apply In_hm_keys in I as [v I]. exists t, v. split; [exact I|]. apply (trait_name_In p); assumption.
    - intros (t & v & I & K). exists t. split; [apply In_hm_keys; eauto|]. apply (trait_name_In p); assumption.
  Qed.
  Lemma naming_issues s i :
    In i (nc_shape camel mixed s) <-> exists p c n id, must_follow s p c n id /\ linted p /\ named_badly p c n id i.
  Proof.
    assert (MB : In i (match ts_body s with
        | KStructure ms | KUnion ms => flat_map (fun e => nc_member_name mixed (ms_id (snd e)) (ts_id s)
                                ++ nc_shape_name camel (ms_target (snd e)) true ++ nc_applied mixed (ms_traits (snd e))) ms
        | _ => [] end)
      <-> exists k m, In (k, m) (shape_members (ts_body s))
            /\ (named_badly PMember LowerCamel (ms_id m) (ts_id s) i
                \/ named_badly PTarget UpperCamel (sid_name (ms_target m)) (ms_target m) i
                \/ exists t v, In (t, v) (ms_traits m) /\ named_badly PMemberTrait LowerCamel (sid_name t) t i)).
    { assert (G : forall ms : members,
        In i (flat_map (fun e => nc_member_name mixed (ms_id (snd e)) (ts_id s)
                                ++ nc_shape_name camel (ms_target (snd e)) true ++ nc_applied mixed (ms_traits (snd e))) ms)
        <-> exists k m, In (k, m) ms
            /\ (named_badly PMember LowerCamel (ms_id m) (ts_id s) i
                \/ named_badly PTarget UpperCamel (sid_name (ms_target m)) (ms_target m) i
                \/ exists t v, In (t, v) (ms_traits m) /\ named_badly PMemberTrait LowerCamel (sid_name t) t i)).
      { intros ms. rewrite in_flat_map. split.
        - intros ([k m] & I & Q). exists k, m. split; [exact I|]. cbn [snd] in Q.
          rewrite !in_app_iff, member_name_In, (shape_name_In true), (applied_In PMemberTrait) in Q by discriminate. exact Q.
        - intros (k & m & I & Q). exists (k, m). split; [exact I|]. cbn [snd].
          rewrite !in_app_iff, member_name_In, (shape_name_In true), (applied_In PMemberTrait) by discriminate. exact Q. }
      destruct (ts_body s); cbn [shape_members]; try apply G; (split; [intros []|intros (? & ? & [] & _)]). }
    unfold nc_shape. rewrite !in_app_iff, MB, (applied_In PTrait) by discriminate. clear MB. split.
    - intros [I|[(t & v & I & N)|(k & m & I & [N|[N|(t & v & It & N)]])]].
      + destruct (has_trait trait_trait (ts_traits s)) eqn:T.
        * apply (trait_name_In PDefinition) in I; [|discriminate]. exists PDefinition, LowerCamel, (sid_name (ts_id s)), (ts_id s).
          split; [apply mf_trait; apply has_trait_dec, T|]. split; [exact Logic.I|exact I].
        * apply (shape_name_In false) in I. exists PDefinition, UpperCamel, (sid_name (ts_id s)), (ts_id s).
          split; [apply mf_shape; intros C; apply has_trait_dec in C; unfold trait_trait in T; congruence|]. split; [exact Logic.I|exact I].
      + exists PTrait, LowerCamel, (sid_name t), t. split; [apply mf_applied; [tauto|econstructor; eauto]|]. split; [exact Logic.I|exact N].
      + exists PMember, LowerCamel, (ms_id m), (ts_id s). split; [econstructor; eauto|]. split; [exact Logic.I|exact N].
      + exists PTarget, UpperCamel, (sid_name (ms_target m)), (ms_target m). split; [apply mf_target; econstructor; eauto|]. split; [exact Logic.I|exact N].
      + exists PMemberTrait, LowerCamel, (sid_name t), t. split; [apply mf_applied; [tauto|eapply ia_member_trait; eauto]|]. split; [exact Logic.I|exact N].
    - intros (p & c & n & id & M & L & N). destruct M as [D|D|p t P A|t A|n m I].
      + left. destruct (has_trait trait_trait (ts_traits s)) eqn:T; [apply has_trait_dec in T; contradiction|].
        apply (shape_name_In false), N.
      + left. apply has_trait_dec in D. unfold trait_trait. rewrite D. apply (trait_name_In PDefinition); [discriminate|exact N].
      + destruct A as [|t v It|n m I|n m t v I It|m t v E It]; try (destruct P as [P|[P|P]]; discriminate P).
        * right. left. eauto.
        * right. right. exists n, m. split; [exact I|]. right. right. eauto.
        * destruct L.
      + inversion A as [| |n m I| |]; subst. right. right. exists n, m. split; [exact I|]. right. left. exact N.
      + right. right. exists n, m. split; [exact I|]. left. exact N.
  Qed.
End Names.

(** ** A linter that is used again *)
Section Again.
  Context `{H : Hasher}.
  Variable snake : str -> str.
  Lemma fold_checked l : forall c is,
    (forall n id, In (n, id) l -> hm_contains ident_key_eqb n (fst (fold_left (ut_step snake) l (c, is))) = true)
    /\ (forall n, hm_contains ident_key_eqb n c = true -> hm_contains ident_key_eqb n (fst (fold_left (ut_step snake) l (c, is))) = true).
  Proof.
    induction l as [|[n id] l IH]; intros c is; cbn [fold_left].
    - split; [intros ? ? []|auto].
    - assert (S : exists c' is', ut_step snake (c, is) (n, id) = (c', is')
                  /\ hm_contains ident_key_eqb n c' = true /\ forall k, hm_contains ident_key_eqb k c = true -> hm_contains ident_key_eqb k c' = true).
      { unfold ut_step, ut_identifier. cbn [fst snd]. destruct (hm_contains ident_key_eqb n c) eqn:C; cbn [negb].
        - exists c, is. auto.
        - do 2 eexists. split; [reflexivity|]. unfold hm_contains. split.
          + rewrite hm_get_insert by auto with equivb. rewrite (eqv_refl _ ident_key_equiv). reflexivity.
          + intros k K. rewrite hm_get_insert by auto with equivb. destruct (ident_key_eqb n k); [reflexivity|exact K]. }
      destruct S as (c' & is' & -> & A & B). destruct (IH c' is') as [IH1 IH2]. split.
      + intros k x [E|I]; [injection E as <- <-; apply IH2, A|eapply IH1, I].
      + intros k K. apply IH2, B, K.
  Qed.
  Lemma second_check m1 m2 c is : exists new,
    snd (ut_check_state snake m2 (ut_check_state snake m1 (c, is))) = snd (ut_check_state snake m1 (c, is)) ++ new
    /\ forall i, In i new -> exists s p n id w, stored m2 s /\ linted p /\ name_at s p n id /\ has_unwelcome_word snake n w
          /\ i = Issue (lit "UnwelcomeTerms") Warning (unwelcome_message w) (Some id)
          /\ forall s1 p1 n1 id1, stored m1 s1 -> linted p1 -> name_at s1 p1 n1 id1 -> ident_key_eqb n1 n = false.
  Proof.
    rewrite !ut_check_fold. destruct (fold_left (ut_step snake) (all_mentions m1) (c, is)) as [c1 is1] eqn:E1.
    rewrite ut_fold_issues. cbn [snd]. eexists. split; [reflexivity|].
    intros i I. apply in_flat_map in I as ([n id] & I & R). pose proof I as I'. apply firsts_incl, all_mentions_spec in I as (s & p & S & L & N).
    apply In_report in R as (w & W & ->). exists s, p, n, id, w. repeat (split; [assumption|]). split; [reflexivity|].
    intros s1 p1 n1 id1 S1 L1 N1. destruct (ident_key_eqb n1 n) eqn:K; [|reflexivity]. exfalso.
    assert (M : In (n1, id1) (all_mentions m1)) by (apply all_mentions_spec; eauto).
    destruct (fold_checked (all_mentions m1) c is) as [A _]. specialize (A n1 id1 M). rewrite E1 in A. cbn [fst] in A.
    destruct (firsts_distinct lower lower lower (all_mentions m2) c1) as [_ D]. rewrite Forall_forall in D. specialize (D _ I'). cbn [fst] in D.
    unfold hm_contains in A, D. rewrite (hm_get_cong _ ident_key_equiv c1 n1 n K) in A. congruence.
  Qed.
End Again.
