(** Facts about the command line tool: its report can be read back, what its exit codes say. *)
From Verif.Model Require Import Cli.
From Verif.Spec Require Import IdentitySpec ModelSpec ActionsSpec CliSpec.
From Verif.Proofs Require Import BaseFacts HashMapFacts IdentityFacts ActionFacts.
From Verif.Proofs Require GraphMLFacts.

Local Opaque lit.
Arguments lit : simpl never.
Notation nl := (ascii_of_N 10).

(** ** Reading a report *)
Lemma strip_app p s : strip p (p ++ s) = Some s.
Proof. induction p as [|c p IH]; cbn; [reflexivity|]. rewrite Ascii.eqb_refl. exact IH. Qed.
Lemma head_back l msg : read_head (lit "[" ++ level_display l ++ lit "] " ++ msg) = Some (l, msg).
Proof. destruct l; unfold read_head; reflexivity. Qed.
Lemma first_word_app w s : ~ In " "%char w -> first_word (w ++ " "%char :: s) = (w, s).
Proof.
  induction w as [|c w IH]; intros N; [reflexivity|]. cbn [app first_word].
  destruct (Ascii.eqb c " ") eqn:E; [apply Ascii.eqb_eq in E; subst; exfalso; apply N; left; reflexivity|].
  rewrite IH; [reflexivity|]. intros I. apply N. right. exact I.
Qed.
Lemma source_back rep e : ~ In " "%char rep ->
  read_source (tab ++ lit "Reported by " ++ rep ++ lit " for element " ++ e ++ lit ".") = Some (rep, e).
Proof.
  intros N. unfold read_source. change (tab ++ lit "Reported by " ++ rep ++ lit " for element " ++ e ++ lit ".")
    with ((ascii_of_N 9 :: lit "Reported by ") ++ (rep ++ " "%char :: (lit "for element " ++ e ++ lit "."))).
  rewrite strip_app, first_word_app; [|exact N]. rewrite strip_app. change (lit ".") with ["."%char]. rewrite rev_app_distr. cbn [rev app].
  rewrite rev_involutive. reflexivity.
Qed.

(** ** Lines *)
Lemma one_line_app a b : one_line (a ++ b) <-> one_line a /\ one_line b.
Proof. unfold one_line. rewrite in_app_iff. tauto. Qed.
Ltac lit_line := let I := fresh in intros I; vm_compute in I; repeat destruct I as [I|I]; try discriminate I; try contradiction.
Lemma ids_one_line s : forallb GraphMLFacts.id_ch s = true -> one_line s.
Proof. intros F I. rewrite forallb_forall in F. specialize (F _ I). vm_compute in F. discriminate F. Qed.
Lemma id_one_line i : valid_id i -> one_line (id_text i).
Proof. intros V. apply ids_one_line, GraphMLFacts.id_text_ids, V. Qed.
Lemma identifier_one_line s : is_identifier s -> one_line s.
Proof. intros V. apply ids_one_line, GraphMLFacts.identifier_ids, V. Qed.
Lemma locus_one_line o : match o with Some id => valid_id id | None => True end -> one_line (locus_text o).
Proof. destruct o as [i|]; cbn; [rewrite sid_display_text; apply id_one_line|intros _ []]. Qed.

Lemma split_two a b s : one_line a -> one_line b ->
  split_on nl (a ++ nl :: b ++ nl :: nl :: s) = a :: b :: [] :: split_on nl s.
Proof. intros A B. rewrite split_on_app_sep by exact A. rewrite split_on_app_sep by exact B. reflexivity. Qed.
Lemma issue_lines i rest : tidy i ->
  split_on nl (report_issue_no_color i ++ rest)
  = (lit "[" ++ level_display (i_level i) ++ lit "] " ++ i_message i)
    :: (tab ++ lit "Reported by " ++ i_reporter i ++ lit " for element " ++ locus_text (i_locus i) ++ lit ".")
    :: [] :: split_on nl rest.
Proof.
  intros (M & R & _ & L). apply locus_one_line in L. rewrite <- split_two.
  - unfold report_issue_no_color, newline. rewrite <- !app_assoc. reflexivity.
  - apply one_line_app. split; [lit_line|]. apply one_line_app. split; [destruct (i_level i); lit_line|]. apply one_line_app. split; [lit_line|exact M].
  - repeat (apply one_line_app; split; try assumption; [lit_line|]); try assumption; try (apply one_line_app; split; [assumption|]).
    apply one_line_app. split; [lit_line|]. apply one_line_app. split; [exact L|lit_line].
Qed.
Lemma split_empty : split_on nl [] = [[]].
Proof. reflexivity. Qed.
Lemma entries_back is : Forall tidy is -> read_entries (split_on nl (flat_map report_issue_no_color is)) = Some (map entry is).
Proof.
  induction 1 as [|i is T F IH]; [reflexivity|]. cbn [flat_map]. rewrite issue_lines by exact T. cbn [read_entries].
  rewrite head_back, source_back by apply T.
  destruct (lit "[" ++ level_display (i_level i) ++ lit "] " ++ i_message i) eqn:E; [discriminate E|].
  rewrite IH. cbn [map]. unfold entry. destruct (i_locus i); cbn [locus_text]; [rewrite sid_display_text|]; reflexivity.
Qed.
Lemma split_nonempty c s : split_on c s <> [].
Proof. destruct s as [|a s]; cbn; [discriminate|]. destruct (Ascii.eqb a c); [discriminate|]. destruct (split_on c s); discriminate. Qed.
Lemma report_back Y B D U Q is : Forall tidy is -> read_report (report_action_issues Y B D U Q is false) = Some (map entry is).
Proof.
  intros F. unfold report_action_issues, read_report. destruct is as [|i is]; [reflexivity|].
  change (newline ++ ?x) with (nl :: x). cbn [split_on]. rewrite Ascii.eqb_refl.
  change (flat_map (fun i0 : issue => if false then report_issue Y B D U Q i0 else report_issue_no_color i0) (i :: is))
    with (flat_map report_issue_no_color (i :: is)).
  rewrite <- (entries_back _ F). cbn [flat_map]. inversion F as [|x l T F']; subst. rewrite !issue_lines by exact T.
  change (fun i0 : issue => report_issue_no_color i0) with report_issue_no_color.
  destruct (tab ++ lit "Reported by " ++ i_reporter i ++ lit " for element " ++ locus_text (i_locus i) ++ lit "."); reflexivity.
Qed.

(** ** The issues are tidy *)
Lemma rep_word i rep : i_reporter i = rep -> (rep = nur_label \/ rep = ctr_label \/ rep = nc_label \/ rep = ut_label) ->
  one_line (i_reporter i) /\ ~ In " "%char (i_reporter i).
Proof. intros -> [-> | [-> | [-> | ->]]]; split; lit_line. Qed.

Section WithHasher.
  Context `{Hasher}.
  Lemma named_id m s : well_named m -> stored m s -> valid_id (ts_id s).
  Proof. intros W S. apply (W s S) with (p := PDefinition). constructor. Qed.
  Lemma display_line i : valid_id i -> one_line (sid_display i).
  Proof. intros V. rewrite sid_display_text. apply id_one_line, V. Qed.
  Ltac lines := repeat match goal with |- one_line (_ ++ _) => apply one_line_app; split end; auto using display_line, identifier_one_line; try solve [lit_line].
  Lemma nur_tidy m s i : well_named m -> stored m s -> In i (nur_shape s) -> tidy i.
  Proof.
    intros W S I. assert (V := named_id m s W S). unfold nur_shape in I. destruct (ts_body s); try contradiction. destruct I as [<-|[]].
    unfold tidy. cbn. unfold nur_message. repeat split; try solve [lit_line]. lines.
  Qed.
  Lemma type_only_tidy m id n t i : valid_id id -> one_line n -> valid_id t -> In i (check_type_only id n t m) -> tidy i.
  Proof.
    intros V N T I. unfold check_type_only in I. destruct (model_shape m t) as [x|].
    - destruct (_ || _); [|contradiction]. destruct I as [<-|[]]. unfold tidy; cbn. repeat split; try solve [lit_line]; try apply V. lines.
    - destruct (negb _); [|contradiction]. destruct I as [<-|[]]. unfold tidy; cbn. repeat split; try solve [lit_line]; try apply V. lines.
  Qed.
  Lemma operation_only_tidy m id n t i : valid_id id -> one_line n -> valid_id t -> In i (check_operation_only id t m n) -> tidy i.
  Proof.
    intros V N T I. unfold check_operation_only in I. destruct (model_shape m t) as [x|].
    - destruct (negb _); [|contradiction]. destruct I as [<-|[]]. unfold tidy; cbn. repeat split; try solve [lit_line]; try apply V. lines.
    - destruct (negb _); [|contradiction]. destruct I as [<-|[]]. unfold tidy, unresolved_msg; cbn. repeat split; try solve [lit_line]; try apply V. lines.
  Qed.
  Lemma resource_only_tidy m id n t i : valid_id id -> one_line n -> valid_id t -> In i (check_resource_only id t m n) -> tidy i.
  Proof.
    intros V N T I. unfold check_resource_only in I. destruct (model_shape m t) as [x|].
    - destruct (negb _); [|contradiction]. destruct I as [<-|[]]. unfold tidy; cbn. repeat split; try solve [lit_line]; try apply V. lines.
    - destruct (negb _); [|contradiction]. destruct I as [<-|[]]. unfold tidy, unresolved_msg; cbn. repeat split; try solve [lit_line]; try apply V. lines.
  Qed.
  Lemma ctr_tidy m s i : well_named m -> stored m s -> In i (ctr_shape m s) -> tidy i.
  Proof.
    intros W S I. assert (V := named_id m s W S). destruct (W s S) as (_ & R & N). unfold ctr_shape in I. destruct (ts_body s) as [p|x|x|k v|ms|ms|sv|o|r|].
    - destruct (negb _); [|contradiction]. destruct I as [<-|[]]. unfold tidy; cbn. repeat split; try solve [lit_line]; try apply V. lines.
    - cbn in N. inversion N; subst. eapply type_only_tidy; [exact V|apply identifier_one_line; eassumption|apply (R NData); constructor|exact I].
    - cbn in N. inversion N; subst. eapply type_only_tidy; [exact V|apply identifier_one_line; eassumption|apply (R NData); constructor|exact I].
    - cbn in N. inversion N as [|? ? N1 N2]; subst. inversion N2; subst. apply in_app_iff in I as [I|I].
      + eapply type_only_tidy; [exact V|apply identifier_one_line; exact N1|apply (R NData); constructor|exact I].
      + eapply type_only_tidy; [exact V|apply identifier_one_line; eassumption|apply (R NData); constructor|exact I].
    - apply in_flat_map in I as ([n x] & J & I). cbn in N. rewrite Forall_forall in N.
      eapply type_only_tidy; [exact V|apply identifier_one_line, N; apply (in_map (fun e => ms_id (snd e))) in J; exact J|apply (R NData); econstructor; exact J|exact I].
    - apply in_flat_map in I as ([n x] & J & I). cbn in N. rewrite Forall_forall in N.
      eapply type_only_tidy; [exact V|apply identifier_one_line, N; apply (in_map (fun e => ms_id (snd e))) in J; exact J|apply (R NData); econstructor; exact J|exact I].
    - apply in_app_iff in I as [I|I]; apply in_flat_map in I as (t & J & I).
      + eapply operation_only_tidy; [exact V| |apply (R NOperation); constructor; exact J|exact I]. lit_line.
      + eapply resource_only_tidy; [exact V| |apply (R NResource); constructor; exact J|exact I]. lit_line.
    - rewrite !in_app_iff in I. destruct I as [I|[I|I]].
      + destruct (op_input o) as [t|] eqn:E; [|contradiction]. eapply type_only_tidy; [exact V| |apply (R NData); constructor; exact E|exact I]. lit_line.
      + destruct (op_output o) as [t|] eqn:E; [|contradiction]. eapply type_only_tidy; [exact V| |apply (R NData); apply rf_output; exact E|exact I]. lit_line.
      + apply in_flat_map in I as (t & J & I). eapply type_only_tidy; [exact V| |apply (R NData); apply rf_error; exact J|exact I]. lit_line.
    - rewrite !in_app_iff in I. destruct I as [I|I].
      { apply in_flat_map in I as ([n t] & J & I). cbn in N. rewrite Forall_forall in N.
        eapply type_only_tidy; [exact V|apply identifier_one_line, N; apply (in_map fst) in J; exact J|apply (R NData); econstructor; exact J|exact I]. }
      repeat match type of I with
      | In i (opt_check (?f r) _) \/ _ => destruct I as [I|I];
          [destruct (f r) as [t|] eqn:E; [|contradiction]; eapply operation_only_tidy; [exact V| | |exact I]; [lit_line|
             apply (R NOperation); first [apply rf_create; exact E|apply rf_put; exact E|apply rf_read; exact E|apply rf_update; exact E|apply rf_delete; exact E|apply rf_list_op; exact E]]|]
      end.
      destruct I as [I|[I|I]]; apply in_flat_map in I as (t & J & I).
      + eapply operation_only_tidy; [exact V| |apply (R NOperation); apply rf_operation; exact J|exact I]. lit_line.
      + eapply operation_only_tidy; [exact V| |apply (R NOperation); apply rf_collection; exact J|exact I]. lit_line.
      + eapply resource_only_tidy; [exact V| |apply (R NResource); apply rf_resource; exact J|exact I]. lit_line.
    - contradiction.
  Qed.
  Lemma validation_tidy m is : well_named m -> standard_model_validation m false = Ok is -> Forall tidy is.
  Proof.
    intros W E. unfold standard_model_validation, run_actions in E. rewrite run_loop_ok in E; [|intros a [<-|[<-|[]]]; reflexivity].
    cbn in E. injection E as <-. rewrite app_nil_r. apply Forall_app. split; apply Forall_forall; intros i I; apply in_flat_map in I as (s & J & I); apply In_shapes in J.
    - eapply nur_tidy; eassumption.
    - eapply ctr_tidy; eassumption.
  Qed.

  (** The linters. *)
  Section Lint.
    Variables (camel mixed snake : str -> str).
    Hypothesis camel_line : forall s, one_line s -> one_line (camel s).
    Hypothesis mixed_line : forall s, one_line s -> one_line (mixed s).
    Lemma name_line i : valid_id i -> one_line (sid_name i).
    Proof. intros (_ & N & _). apply identifier_one_line, N. Qed.
    Lemma nc_shape_name_tidy i r x : valid_id i -> In x (nc_shape_name camel i r) -> tidy x.
    Proof.
      intros V I. unfold nc_shape_name in I. destruct (negb _); [|contradiction]. destruct I as [<-|[]]. unfold tidy; cbn.
      repeat split; try solve [lit_line]; try apply V. assert (N := name_line i V). destruct r; lines.
    Qed.
    Lemma nc_trait_name_tidy i x : valid_id i -> In x (nc_trait_name mixed i) -> tidy x.
    Proof.
      intros V I. unfold nc_trait_name in I. destruct (negb _); [|contradiction]. destruct I as [<-|[]]. unfold tidy; cbn.
      repeat split; try solve [lit_line]; try apply V. assert (N := name_line i V). lines.
    Qed.
    Lemma nc_member_name_tidy n i x : one_line n -> valid_id i -> In x (nc_member_name mixed n i) -> tidy x.
    Proof.
      intros N V I. unfold nc_member_name in I. destruct (negb _); [|contradiction]. destruct I as [<-|[]]. unfold tidy; cbn.
      repeat split; try solve [lit_line]; try apply V. lines.
    Qed.
    Lemma nc_tidy m s i : well_named m -> stored m s -> In i (nc_shape camel mixed s) -> tidy i.
    Proof.
      intros W S I. assert (V := named_id m s W S). destruct (W s S) as (A & _ & N). unfold nc_shape in I. rewrite !in_app_iff in I. destruct I as [I|[I|I]].
      - destruct (has_trait _ _); [eapply nc_trait_name_tidy|eapply nc_shape_name_tidy]; eassumption.
      - unfold nc_applied in I. apply in_flat_map in I as (t & J & I). apply in_map_iff in J as ([t' v] & <- & J).
        eapply nc_trait_name_tidy; [|exact I]. apply (A PTrait). econstructor. exact J.
      - assert (M : In i (flat_map (fun e => nc_member_name mixed (ms_id (snd e)) (ts_id s) ++ nc_shape_name camel (ms_target (snd e)) true
                             ++ nc_applied mixed (ms_traits (snd e))) (shape_members (ts_body s)))) by (destruct (ts_body s); assumption || contradiction).
        clear I. apply in_flat_map in M as ([k x] & J & I). cbn [snd] in I. rewrite !in_app_iff in I. destruct I as [I|[I|I]].
        + eapply nc_member_name_tidy; [|exact V|exact I]. apply identifier_one_line. rewrite Forall_forall in N. apply N.
          apply (in_map (fun e => ms_id (snd e))) in J. destruct (ts_body s); try contradiction; exact J.
        + eapply nc_shape_name_tidy; [|exact I]. apply (A PTarget). econstructor. exact J.
        + unfold nc_applied in I. apply in_flat_map in I as (t & Jt & I). apply in_map_iff in Jt as ([t' v] & <- & Jt).
          eapply nc_trait_name_tidy; [|exact I]. apply (A PMemberTrait). econstructor; eassumption.
    Qed.
    Lemma place_id_valid m s p n id : well_named m -> stored m s -> linted p -> name_at s p n id -> valid_id id.
    Proof.
      intros W S L N. assert (V := named_id m s W S). destruct N as [p i n A _|k x _|r n t _ _|v i n _ _]; [|exact V..].
      apply (W s S) in A. exact A.
    Qed.
    Lemma unwelcome_line w : is_unwelcome_term w = true -> one_line w.
    Proof.
      intros U. apply is_unwelcome_term_spec in U. unfold unwelcome_words in U. repeat destruct U as [<-|U]; try contradiction; lit_line.
    Qed.
    Lemma lint_tidy m is : well_named m -> standard_model_lint camel mixed snake m false = Ok is -> Forall tidy is.
    Proof.
      intros W E. unfold standard_model_lint, run_actions in E. rewrite run_loop_ok in E; [|intros a [<-|[<-|[]]]; reflexivity].
      cbn [flat_map a_call a_issues] in E. injection E as <-. rewrite app_nil_r. apply Forall_app. split; apply Forall_forall; intros i I.
      - cbn in I. apply in_flat_map in I as (s & J & I). apply In_shapes in J. eapply nc_tidy; eassumption.
      - change (snd (ut_check_state snake m ([], []))) with (fst (ut_check snake m [])) in I. rewrite ut_check_issues in I. cbn [fst app] in I. apply in_flat_map in I as ([n id] & I & R).
        apply firsts_incl, all_mentions_spec in I as (s & p & S & L & N). assert (V := place_id_valid m s p n id W S L N).
        unfold report in R. apply in_map_iff in R as (w & <- & F). apply filter_In in F as [_ F]. apply unwelcome_line in F.
        unfold tidy; cbn. unfold ut_message. repeat split; try solve [lit_line]; try apply V. lines.
    Qed.
  End Lint.
End WithHasher.
