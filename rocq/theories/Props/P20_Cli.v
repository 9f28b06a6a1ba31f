(** C51: the command line tool (cargo-atelier). *)
From Coq Require Import Permutation.
From Verif.Model Require Import Cli.
From Verif.Model Require Json Assembler SmithyParse SmithyWrite.
From Verif.Spec Require Import IdentitySpec ModelSpec ReorderSpec ActionsSpec CliSpec Witness.
From Verif.Spec Require JsonSpec SmithySpec AssemblerSpec.
From Verif.Proofs Require Import BaseFacts HashMapFacts IdentityFacts ActionFacts CliFacts.
From Verif.Proofs Require Import LinesFacts.
From Verif.Proofs Require AssemblerFacts JsonFacts SmithyBuildFacts SelectorFacts.

Section Tool.
  Context `{H : Hasher}.
  Variables (json_reader smithy_reader : str -> result model).
  Variables (json_pretty : Json.json -> str) (render : Document.document -> str).
  Variables (f64_str : Z -> str) (debug_str : str -> str).
  Variables (camel mixed snake : str -> str) (safe_label : str -> str -> str).
  Variables (yellow bright_red bold underline dimmed : str -> str).
  Variable has_source : error -> bool.
  Variables (path_order : list Assembler.path -> list Assembler.path) (ns_order : list str -> list str).
  Variable root : Assembler.node.

  (** Running the tool, and the model its files and search path make. *)
  Notation tool := (main json_reader smithy_reader json_pretty render f64_str debug_str camel mixed snake safe_label
                         yellow bright_red bold underline dimmed has_source path_order ns_order root).
  Notation assembled := (assemble_model json_reader smithy_reader path_order root).
  Notation registry := (Assembler.reg_default json_reader smithy_reader).

  (** ** Input *)
  (** The model is put together from exactly the JSON and Smithy files at or below the given files and the
      directories of the search path. *)
  Theorem C51_inputs :
    (forall l, Permutation (path_order l) l) -> AssemblerSpec.readers_ok registry -> AssemblerSpec.node_ok root ->
    forall files search m, assembled files search = Ok m ->
      exists qs ms,
        (forall q, In q qs <->
           (exists p, (In p files \/ exists dirs, search = Some dirs /\ In p dirs) /\ AssemblerSpec.below p q)
           /\ AssemblerSpec.model_file registry root q)
        /\ Forall2 (fun q m => AssemblerSpec.reads registry root q m) qs ms
        /\ AssemblerSpec.combined_model ms m /\ model_ok m.
  Proof.
    intros PO RO NO files search m A. unfold assemble_model in A.
    destruct (AssemblerFacts.assemble_spec registry root (path_order (pushed_paths files search)) RO) as [_ Sp]. destruct (Sp m A) as (ms & R & _ & C & K).
    exists (Assembler.expand_file_paths registry root (path_order (pushed_paths files search))), ms. split; [|split; [|split; [exact C|exact K]]].
    - intros q. rewrite (AssemblerFacts.expand_In _ _ _ _ NO). apply and_iff_compat_r. split.
      + intros (p & I & B). exists p. split; [|exact B]. apply (Permutation_in _ (PO _)) in I. unfold pushed_paths in I.
        rewrite (proj2 (AssemblerFacts.push_all _ _)) in I. rewrite (proj2 (AssemblerFacts.push_all _ _)) in I.
        destruct I as [[[]|I]|I]; [|left; exact I]. right. destruct search as [dirs|]; [eauto|destruct I].
      + intros (p & I & B). exists p. split; [|exact B]. apply (Permutation_in _ (Permutation_sym (PO _))). unfold pushed_paths.
        rewrite (proj2 (AssemblerFacts.push_all _ _)), (proj2 (AssemblerFacts.push_all _ _)).
        destruct I as [I|(dirs & -> & I)]; tauto.
    - assert (F : Forall (fun q => exists c, Assembler.node_at root q = Some (Assembler.NFile c)) (Assembler.expand_file_paths registry root (path_order (pushed_paths files search)))).
      { apply Forall_forall. intros q I. apply AssemblerFacts.expand_In in I; [|exact NO]. apply I. }
      clear -R F. unfold AssemblerFacts.read_all in R. revert F. induction R as [|q x qs ms E R IH]; intros F; [constructor|].
      inversion F; subst. constructor; [apply AssemblerFacts.read_model_spec; assumption|auto].
  Qed.

  (** ** Exit codes *)
  Theorem C51_exit :
    forall files search color,
      ended (tool (Validate files search color))
      = match assembled files search with Ok _ => Exit0 | Err _ => Exit1 | Panic => Crash end
      /\ ended (tool (Lint files search color))
      = match assembled files search with Ok _ => Exit0 | Err _ => Exit1 | Panic => Crash end.
  Proof.
    intros files search color. cbn [main]. unfold validate_file, lint_file. destruct (assembled files search) as [m|e|]; cbn [rbind].
    - unfold standard_model_validation, standard_model_lint, run_actions. rewrite !run_loop_ok; [split; reflexivity|intros a [<-|[<-|[]]]; reflexivity..].
    - split; reflexivity.
    - split; reflexivity.
  Qed.

  (** ** Validation *)
  (** What [validate] prints can be read back, and says: one entry for every unresolved shape, in order, then
      entries about exactly the ids of the shapes with something wrong. *)
  Lemma validation_issues m :
    standard_model_validation m false = Ok (flat_map nur_shape (shapes m) ++ flat_map (ctr_shape m) (shapes m)).
  Proof.
    unfold standard_model_validation, run_actions. rewrite run_loop_ok by (intros a [<-|[<-|[]]]; reflexivity). cbn. rewrite app_nil_r. reflexivity.
  Qed.
  Theorem C51_validate_report :
    forall files search m, assembled files search = Ok m -> well_named m ->
      exists text kinds,
        tool (Validate files search false) = Outcome text Exit0
        /\ read_report text
           = Some (map (fun s => (Error, lit "The model has an unresolved reference to shape '" ++ id_text (ts_id s) ++ lit "'",
                                  lit "NoUnresolvedReferences", []))
                       (filter (fun s => is_unresolved (ts_body s)) (shapes m)) ++ kinds)
        /\ (forall l msg r e, In (l, msg, r, e) kinds -> r = lit "CorrectTypeReferences")
        /\ (forall l e, (exists msg r, In (l, msg, r, e) kinds) <-> exists s, stored m s /\ id_text (ts_id s) = e /\ offence m s l).
  Proof.
    intros files search m A W. exists (report_action_issues yellow bright_red bold underline dimmed
      (flat_map nur_shape (shapes m) ++ flat_map (ctr_shape m) (shapes m)) false), (map entry (flat_map (ctr_shape m) (shapes m))).
    split; [|split; [|split]].
    - cbn [main]. unfold validate_file. rewrite A. cbn [rbind]. rewrite validation_issues. reflexivity.
    - rewrite report_back by (eapply validation_tidy; [exact W|apply validation_issues]). rewrite map_app. apply f_equal. apply f_equal2; [|reflexivity].
      induction (shapes m) as [|s l IH]; [reflexivity|]. cbn [flat_map filter]. unfold nur_shape at 1. destruct (ts_body s); cbn [is_unresolved app map]; try exact IH.
      rewrite IH. unfold entry, nur_message. cbn [error_nowhere i_level i_message i_reporter i_locus]. rewrite sid_display_text. reflexivity.
    - intros l msg r e I. apply in_map_iff in I as (i & E & I). apply ctr_no_nowhere in I as [_ R]. unfold entry in E. injection E as _ _ <- _. exact R.
    - intros l e. split.
      + intros (msg & r & I). apply in_map_iff in I as (i & E & I). unfold entry in E. injection E as L _ _ X.
        destruct (ctr_no_nowhere m i I) as [N _]. destruct (i_locus i) as [id|] eqn:Lo; [|congruence].
        destruct (proj1 (ctr_issues m l id)) as (s & S & <- & O); [eauto|]. exists s. auto.
      + intros (s & S & <- & O). destruct (proj2 (ctr_issues m l (ts_id s))) as (i & I & L & Lo); [eauto|].
        exists (i_message i), (i_reporter i). apply in_map_iff. exists i. split; [|exact I]. unfold entry. rewrite Lo, L. reflexivity.
  Qed.

  (** "No issues reported." is printed exactly when there is nothing to report. *)
  Lemma no_offence m s : (forall l, ~ offence m s l) <->
    (forall n t x, refers (ts_body s) n t -> model_shape m t = Some x -> fits n (ts_body x))
    /\ (forall n t, refers (ts_body s) n t -> model_shape m t = None -> sid_ns t = lit "smithy.api")
    /\ (forall p, ts_body s = KSimple p -> ts_traits s <> []).
  Proof.
    split.
    - intros N. split; [|split].
      + intros n t x R E. destruct (fitsb n (ts_body x)) eqn:F; [apply fitsb_fits, F|]. exfalso. apply (N Error). eapply off_kind; eauto.
        rewrite <- fitsb_fits, F. discriminate.
      + intros n t R E. destruct (str_eqb (sid_ns t) (lit "smithy.api")) eqn:F; [apply str_eqb_eq, F|]. exfalso. apply (N Warning).
        eapply off_missing; eauto. apply str_eqb_neq, F.
      + intros p B T. apply (N Info). eapply off_synonym; eauto.
    - intros (A & B & C) l O. destruct O as [n t x R E F|n t R E F|p B' T]; [apply F; eapply A; eauto|apply F; eapply B; eauto|eapply C; eauto].
  Qed.
  Theorem C51_validate_clean :
    forall files search,
      tool (Validate files search false) = Outcome (ascii_of_N 10 :: lit "No issues reported." ++ [ascii_of_N 10]) Exit0
      <-> exists m, assembled files search = Ok m /\ clean m.
  Proof.
    intros files search. cbn [main]. unfold validate_file. destruct (assembled files search) as [m|e|]; cbn [rbind];
      [|split; [discriminate|intros (m & E & _); discriminate E]..].
    rewrite validation_issues. cbn [reported].
    assert (Em : (flat_map nur_shape (shapes m) ++ flat_map (ctr_shape m) (shapes m) = []) <-> clean m).
    { split.
      - intros E s S. apply app_eq_nil in E as [E1 E2]. split.
        + intros B. apply In_shapes in S. assert (I : In (error_nowhere nur_label (nur_message (ts_id s))) (flat_map nur_shape (shapes m)))
            by (apply in_flat_map; exists s; split; [exact S|unfold nur_shape; rewrite B; left; reflexivity]).
          rewrite E1 in I. destruct I.
        + apply no_offence. intros l O. destruct (proj2 (ctr_issues m l (ts_id s))) as (i & I & _); [eauto|]. rewrite E2 in I. destruct I.
      - intros C. destruct (flat_map nur_shape (shapes m)) as [|i l] eqn:E1.
        + destruct (flat_map (ctr_shape m) (shapes m)) as [|i l] eqn:E2; [reflexivity|]. exfalso.
          assert (I : In i (flat_map (ctr_shape m) (shapes m))) by (rewrite E2; left; reflexivity).
          destruct (ctr_no_nowhere m i I) as [N _]. destruct (i_locus i) as [id|] eqn:Lo; [|congruence].
          destruct (proj1 (ctr_issues m (i_level i) id)) as (s & S & _ & O); [eauto|].
          destruct (C s S) as [_ K]. apply (proj2 (no_offence m s)) with (l := i_level i) in K. contradiction.
        + exfalso. assert (I : In i (flat_map nur_shape (shapes m))) by (rewrite E1; left; reflexivity).
          apply in_flat_map in I as (s & S & I). apply In_shapes in S. destruct (C s S) as [N _]. unfold nur_shape in I. destruct (ts_body s); congruence || contradiction. }
    split.
    - intros E. exists m. split; [reflexivity|]. apply Em. destruct (_ ++ _) as [|i l]; [reflexivity|]. exfalso.
      injection E as E. destruct (i_level i); discriminate E.
    - intros (m' & [= <-] & C). apply Em in C. rewrite C. reflexivity.
  Qed.

  (** ** Linting: the report can be read back too. *)
  Theorem C51_lint_report :
    (forall s, one_line s -> one_line (camel s)) -> (forall s, one_line s -> one_line (mixed s)) ->
    forall files search m, assembled files search = Ok m -> well_named m ->
      exists text issues,
        tool (Lint files search false) = Outcome text Exit0
        /\ standard_model_lint camel mixed snake m false = Ok issues
        /\ read_report text = Some (map entry issues).
  Proof.
    intros LC LM files search m A W.
    destruct (standard_model_lint camel mixed snake m false) as [is|e|] eqn:E;
      [|unfold standard_model_lint, run_actions in E; rewrite run_loop_ok in E by (intros a [<-|[<-|[]]]; reflexivity); discriminate E..].
    exists (report_action_issues yellow bright_red bold underline dimmed is false), is. split; [|split; [reflexivity|]].
    - cbn [main]. unfold lint_file. rewrite A. cbn [rbind]. rewrite E. reflexivity.
    - apply report_back. exact (lint_tidy camel mixed snake LC LM m is W E).
  Qed.

  (** ** Conversion *)
  (** A file with one of the two extensions, assembled on its own, gives what its reader makes of it. *)
  Lemma one_file root' q e text r m :
    Assembler.node_at root' q = Some (Assembler.NFile text) -> Assembler.path_extension q = Some e ->
    (lower e = lit "json" /\ r = json_reader \/ lower e = lit "smithy" /\ r = smithy_reader) ->
    r text = Ok m -> Assembler.assemble registry root' [q] = Ok m.
  Proof.
    intros N E L R. unfold Assembler.assemble, Assembler.expand_file_paths, Assembler.expand_path. cbn [flat_map]. rewrite N. cbn [Assembler.expand_node]. rewrite E.
    assert (G : Assembler.reg_get registry e = Some (Assembler.ft_new (if str_eqb (lower e) (lit "json") then lit "JSON AST" else lit "Smithy IDL") r)).
    { unfold Assembler.reg_get. destruct L as [[-> ->]|[-> ->]]; reflexivity. }
    unfold Assembler.reg_contains. rewrite G. cbn [app Assembler.collect]. unfold Assembler.read_model. rewrite E.
    assert (G' : Assembler.reg_get registry (lower e) = Assembler.reg_get registry e) by (unfold Assembler.reg_get; rewrite lower_idem; reflexivity).
    rewrite G', G, N. cbn [Assembler.ft_new Assembler.ft_reader]. rewrite R. reflexivity.
  Qed.

  (** The JSON that [convert] prints, put in a file, makes the model again (up to what the JSON AST does not
      keep, C26). *)
  Theorem C51_convert_json :
    forall files search namespace m,
      assembled files search = Ok m -> JsonSpec.model_writable m ->
      (forall j, Json.model_to_json m = Ok j -> json_reader (json_pretty j) = Json.read_model j) ->
      exists text m',
        tool (Convert files None FJson namespace search) = Outcome text Exit0
        /\ reorder_model (JsonSpec.json_image m) m'
        /\ forall root' q e, Assembler.node_at root' q = Some (Assembler.NFile text) -> Assembler.path_extension q = Some e -> lower e = lit "json" ->
             Assembler.assemble registry root' [q] = Ok m'.
  Proof.
    intros files search namespace m A W P. destruct (JsonFacts.model_round m W) as (j & m' & E & R & O).
    exists (json_pretty j), m'. split; [|split; [exact O|]].
    - cbn [main]. unfold convert_file_format. rewrite A. cbn [rbind write_model open_sink]. rewrite E. reflexivity.
    - intros root' q e N X L. eapply one_file; [exact N|exact X|left; split; [exact L|reflexivity]|]. rewrite (P j E). exact R.
  Qed.

  (** The same for the Smithy IDL (C40); a namespace must be given unless there is only one. *)
  Theorem C51_convert_smithy :
    forall (f64_parse : str -> Z) files search ns namespace m,
      assembled files search = Ok m ->
      (namespace = Some ns \/ namespace = None /\ namespaces m = [ns]) ->
      SmithySpec.model_writable f64_str debug_str f64_parse ns m ->
      (forall t, smithy_reader t = SmithyParse.parse_model f64_parse t) ->
      exists text m',
        tool (Convert files None FSmithy namespace search) = Outcome text Exit0
        /\ m_version m' = m_version m
        /\ m_metadata m' = map SmithySpec.metadata_back (m_metadata m)
        /\ Permutation (m_shapes m') (map (fun s => (ts_id s, SmithySpec.shape_back s)) (SmithySpec.written ns m))
        /\ forall root' q e, Assembler.node_at root' q = Some (Assembler.NFile text) -> Assembler.path_extension q = Some e -> lower e = lit "smithy" ->
             Assembler.assemble registry root' [q] = Ok m'.
  Proof.
    intros f64_parse files search ns namespace m A N W P. destruct (SmithyBuildFacts.round_trip f64_str debug_str f64_parse ns m W) as (m' & R & V & M & S).
    exists (SmithyWrite.write_smithy f64_str debug_str ns m), m'. split; [|split; [exact V|split; [exact M|split; [exact S|]]]].
    - cbn [main]. unfold convert_file_format. rewrite A. cbn [rbind write_model open_sink].
      destruct N as [-> |[-> ->]]; [|reflexivity].
      assert (NV : ns_is_valid ns = true).
      { apply ns_is_valid_spec. destruct W as ((ids & NE & F & ->) & _). exists ids. split; [exact NE|]. split; [|reflexivity].
        exact (Forall_impl _ SelectorFacts.short_is_identifier F). }
      unfold ns_from_str. rewrite NV. reflexivity.
    - intros root' q e F X L. eapply one_file; [exact F|exact X|right; split; [exact L|reflexivity]|]. rewrite P. exact R.
  Qed.
  Theorem C51_convert_smithy_needs_a_namespace :
    forall files out_file search m, assembled files search = Ok m -> length (namespaces m) <> 1 ->
      ended (tool (Convert files out_file FSmithy None search)) = Exit0 ->
      exists p, out_file = Some p /\ Assembler.node_at root p = None.
  Proof.
    intros files out_file search m A L E. cbn [main] in E. unfold convert_file_format in E. rewrite A in E. cbn [rbind] in E. unfold write_model, open_sink in E.
    destruct out_file as [p|].
    - exists p. split; [reflexivity|]. destruct (Assembler.node_at root p); [|reflexivity]. exfalso. cbn [rbind] in E.
      destruct (namespaces m) as [|a [|b l]]; try discriminate E. apply L. reflexivity.
    - exfalso. cbn [rbind] in E. destruct (namespaces m) as [|a [|b l]]; try discriminate E. apply L. reflexivity.
  Qed.

  (** ** Output files: nothing is ever written to one. *)
  Theorem C51_output_file :
    forall files p format namespace search,
      (forall text, convert_file_format json_reader smithy_reader json_pretty f64_str debug_str path_order ns_order root files (Some p) format namespace search <> Ok text)
      /\ (forall text, document_file json_reader smithy_reader render f64_str safe_label path_order ns_order root files (Some p) search <> Ok text)
      /\ printed (tool (Convert files (Some p) format namespace search)) = []
      /\ printed (tool (Describe files (Some p) search)) = [].
  Proof.
    intros files p format namespace search.
    assert (C : forall text, convert_file_format json_reader smithy_reader json_pretty f64_str debug_str path_order ns_order root files (Some p) format namespace search <> Ok text).
    { intros text E. unfold convert_file_format in E. destruct (assembled files search) as [m|e|]; try discriminate E. cbn [rbind] in E. unfold write_model, open_sink in E.
      destruct (Assembler.node_at root p); [|discriminate E]. cbn [rbind] in E. destruct format; cbn in E.
      - destruct (Json.model_to_json m); discriminate E.
      - destruct namespace as [s|]; [destruct (ns_from_str s); discriminate E|]. destruct (namespaces m) as [|a [|b l]]; discriminate E.
      - discriminate E. }
    assert (D : forall text, document_file json_reader smithy_reader render f64_str safe_label path_order ns_order root files (Some p) search <> Ok text).
    { intros text E. unfold document_file in E. destruct (assembled files search) as [m|e|]; try discriminate E. cbn [rbind] in E.
      destruct (Document.describe_model _ _ _ m) as [d|e|]; try discriminate E. cbn [rbind] in E. unfold open_sink in E.
      destruct (Assembler.node_at root p); discriminate E. }
    split; [exact C|]. split; [exact D|]. cbn [main]. split.
    - destruct (convert_file_format _ _ _ _ _ _ _ _ _ _ _ _ _) eqn:E; [destruct (C _ eq_refl)|reflexivity..].
    - destruct (document_file _ _ _ _ _ _ _ _ _ _ _) eqn:E; [destruct (D _ eq_refl)|reflexivity..].
  Qed.
End Tool.

Print Assumptions C51_inputs.
Print Assumptions C51_exit.
Print Assumptions C51_validate_report.
Print Assumptions C51_validate_clean.
Print Assumptions C51_lint_report.
Print Assumptions C51_convert_json.
Print Assumptions C51_convert_smithy.
Print Assumptions C51_convert_smithy_needs_a_namespace.
Print Assumptions C51_output_file.

(** ** Arguments *)
(** The output formats are named as they are printed, and nothing else is a format. *)
Theorem C51_format :
  forall f s, format_from_str s = Some f <-> s = format_display f.
Proof.
  intros f s. unfold format_from_str. split.
  - destruct (str_eqb s (lit "json")) eqn:E1; [apply str_eqb_eq in E1; intros [= <-]; exact E1|].
    destruct (str_eqb s (lit "smithy")) eqn:E2; [apply str_eqb_eq in E2; intros [= <-]; exact E2|].
    destruct (str_eqb s (lit "uml")) eqn:E3; [apply str_eqb_eq in E3; intros [= <-]; exact E3|discriminate].
  - intros ->. destruct f; reflexivity.
Qed.
Print Assumptions C51_format.
(** Run by cargo or directly, the tool sees the same arguments. *)
Theorem C51_command_line :
  forall program args,
    check_command_line (program :: lit "atelier" :: args) = program :: args
    /\ (hd_error args <> Some (lit "atelier") -> check_command_line (program :: args) = program :: args).
Proof.
  intros program args. split; [reflexivity|]. destruct args as [|b rest]; [reflexivity|]. cbn [hd_error check_command_line]. intros N.
  destruct (str_eqb b (lit "atelier")) eqn:E; [|reflexivity]. apply str_eqb_eq in E. congruence.
Qed.
Print Assumptions C51_command_line.

(** ** A run of the tool *)
Definition id_order {A} (l : list A) : list A := l.
Definition one_root : Assembler.node := Assembler.NDir [(lit "m.json", Assembler.NFile (lit "{}"))].
Definition ex_tool (m : model) : command -> Cli.outcome :=
  @main zero_hasher (fun _ => Ok m) (fun _ => Panic) (fun _ => lit "text") (fun _ => lit "text") (fun _ => []) (fun s => s)
        (fun s => s) (fun s => s) (fun s => s) (fun _ s => s) (fun s => s) (fun s => s) (fun s => s) (fun s => s) (fun s => s)
        (fun _ => true) id_order id_order one_root.
Definition ex_file : Assembler.path := [lit "m.json"].

(** One would expect a run that reports errors not to end with the exit code of success. *)
Definition C51_errors_fail : Prop :=
  forall m, (exists is i, @standard_model_validation zero_hasher m false = Ok is /\ In i is /\ i_level i = Error) ->
    ended (ex_tool m (Validate [ex_file] None false)) <> Exit0.
Theorem C51_errors_fail_refuted : ~ C51_errors_fail.
Proof.
  intros C. apply (C motd); [|reflexivity]. eexists. eexists. split; [vm_compute; reflexivity|]. split; [left; reflexivity|reflexivity].
Qed.
Print Assumptions C51_errors_fail_refuted.

(** The model of the example, with and without the unresolved shape, meets the hypotheses. *)
Definition clean_motd : model := @remove_shape zero_hasher motd (api_id "String").
Example C51_ex_assembled :
  @assemble_model zero_hasher (fun _ => Ok motd) (fun _ => Panic) id_order one_root [ex_file] None = Ok motd.
Proof. reflexivity. Qed.
Example C51_ex :
  read_report (printed (ex_tool motd (Validate [ex_file] None false)))
  = Some [(Error, lit "The model has an unresolved reference to shape 'smithy.api#String'", lit "NoUnresolvedReferences", [])]
  /\ ex_tool clean_motd (Validate [ex_file] None false) = Outcome (ascii_of_N 10 :: lit "No issues reported." ++ [ascii_of_N 10]) Exit0
  /\ ended (ex_tool motd (Convert [ex_file] None FUml None None)) = Exit0
  /\ ended (ex_tool motd (Describe [ex_file] None None)) = Exit0.
Proof. vm_compute. repeat split. Qed.
Ltac take_apart := cbn [In ts_traits ts_body shape_members ms_traits op_input op_output op_errors sv_operations sv_resources
    rs_identifiers rs_create rs_put rs_read rs_update rs_delete rs_list rs_operations rs_collection_operations rs_resources] in *;
  repeat match goal with
         | h : _ \/ _ |- _ => destruct h as [h|h]
         | h : False |- _ => destruct h
         | h : (_, _) = (_, _) |- _ => injection h as; subst
         | h : Some _ = Some _ |- _ => injection h as; subst
         | h : None = Some _ |- _ => discriminate h
         end.
Ltac solve_named :=
  (split; [|split]);
    [intros p i D; inversion D as [|t v J|n x J|n x t v J J'|x t v J J']; subst; try (inversion J; fail); take_apart; take_apart; apply valid_idb_spec; vm_compute; reflexivity
    |intros n t R; inversion R; subst; take_apart; subst; apply valid_idb_spec; vm_compute; reflexivity
    |repeat (apply Forall_cons || apply Forall_nil); apply ident_is_valid_spec; vm_compute; reflexivity].
Example C51_ex_named : well_named motd.
Proof.
  intros s [k I]. unfold motd in I. cbn [m_shapes map] in I.
  destruct I as [I|I]; [injection I as _ <-; unfold motd_date, ex_member; solve_named|].
  destruct I as [I|I]; [injection I as _ <-; unfold motd_input, ex_member; solve_named|].
  destruct I as [I|I]; [injection I as _ <-; unfold motd_output, ex_member; solve_named|].
  destruct I as [I|I]; [injection I as _ <-; unfold motd_error, ex_member; solve_named|].
  destruct I as [I|I]; [injection I as _ <-; unfold motd_op, ex_member; solve_named|].
  destruct I as [I|I]; [injection I as _ <-; unfold motd_resource, ex_member; solve_named|].
  destruct I as [I|I]; [injection I as _ <-; unfold motd_service, ex_member; solve_named|].
  destruct I as [I|I]; [injection I as _ <-; unfold motd_unresolved, ex_member; solve_named|].
  destruct I.
Qed.
(** (The same model can be written as JSON, C26_ex; models for the Smithy IDL are C40's.) *)
Example C51_ex_inputs :
  @AssemblerSpec.readers_ok zero_hasher (Assembler.reg_default (fun _ => Ok motd) (fun _ => Panic)) /\ AssemblerSpec.node_ok one_root
  /\ (forall l : list Assembler.path, Permutation (id_order l) l).
Proof.
  split; [|split].
  - intros e ft c m G R. assert (F : ft = Assembler.ft_new "JSON AST" (fun _ => Ok motd) \/ ft = Assembler.ft_new "Smithy IDL" (fun _ => Panic)).
    { assert (B : Assembler.by_extension (Assembler.reg_default (fun _ => Ok motd) (fun _ => Panic))
        = [(lit "json", Assembler.ft_new "JSON AST" (fun _ => Ok motd)); (lit "smithy", Assembler.ft_new "Smithy IDL" (fun _ => Panic))]) by reflexivity.
      unfold Assembler.reg_get in G. rewrite B in G. cbn [Assembler.bt_get] in G.
      destruct (str_cmp (lower e) (lit "json")); [injection G as <-; left; reflexivity|discriminate G|].
      destruct (str_cmp (lower e) (lit "smithy")); [injection G as <-; right; reflexivity|discriminate G..]. }
    destruct F as [-> | ->]; cbn in R; [|discriminate R]. injection R as <-. solve_model_ok motd.
  - apply AssemblerSpec.no_dir; [solve_distinct|]. repeat (apply Forall_cons; [cbn [snd]|]); try apply Forall_nil; apply AssemblerSpec.no_file.
  - intros l. reflexivity.
Qed.
