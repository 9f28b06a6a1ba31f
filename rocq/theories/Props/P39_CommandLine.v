(** C74: what is on the command line is what is run. *)
From Coq Require Import Sorting.Permutation.
From Verif.Model Require Import JsonText SmithyParse Assembler Cli CommandLine.
From Verif.Spec Require Import AssemblerSpec ActionsSpec CliSpec ReaderSpec Witness.
From Verif.Proofs Require Import BaseFacts HashMapFacts AssemblerFacts.
From Verif.Props Require P09_Assembler P20_Cli P37_Readers.

(** The input of a sub-command, and where it looks for files: in what follows [--in-file], and in the directories of
    the standard search path if that is asked for, otherwise in those of the variable that is named. *)
Definition input_of (s : sub_command) : file_input :=
  match s with SubLint i | SubValidate i | SubConvert i _ _ _ | SubDocument i _ => i end.
Definition looks_in (default_path : list path) (path_of_env : str -> list path) (i : file_input) (p : path) : Prop :=
  In p (in_file i)
  \/ default_search_env i = true /\ In p default_path
  \/ default_search_env i = false /\ exists v, search_env i = Some v /\ In p (path_of_env v).

Section Tool.
  Context {H : Hasher}.
  Variable json_floats : str -> option Z.
  Variable idl_floats : str -> Z.
  Variables (json_pretty : Json.json -> str) (render : Document.document -> str).
  Variables (f64_str : Z -> str) (debug_str : str -> str).
  Variables (camel mixed snake : str -> str) (safe_label : str -> str -> str).
  Variables (yellow bright_red bold underline dimmed : str -> str).
  Variable has_source : error -> bool.
  Variables (path_order : list path -> list path) (ns_order : list str -> list str).
  Hypothesis Orders : forall l, Permutation (path_order l) l.
  Variable root : node.
  Hypothesis Tree : node_ok root.
  Variable default_path : list path.
  Variable path_of_env : str -> list path.
  Notation json_reader := (read_json_model json_floats).
  Notation smithy_reader := (parse_model idl_floats).
  Notation registry := (reg_default json_reader smithy_reader).
  Notation tool := (main json_reader smithy_reader json_pretty render f64_str debug_str camel mixed snake safe_label
                         yellow bright_red bold underline dimmed has_source path_order ns_order root).
  Notation command_of := (parse_args default_path path_of_env).
  Notation looked_in := (looks_in default_path path_of_env).

  (** The files a command line is about: each model file below a place where it looks. [m] is made of them. *)
  Definition made_of_input (a : command_line) (m : model) : Prop :=
    exists qs ms,
      (forall q, In q qs <-> (exists p, looked_in (input_of (cmd a)) p /\ below p q) /\ model_file registry root q)
      /\ Forall2 (fun q m => reads registry root q m) qs ms /\ ForallOrdPairs models_compatible ms /\ combined_model ms m /\ model_whole m.
  Notation assembled a := (assemble_model json_reader smithy_reader path_order root (in_file (input_of (cmd a)))
                             (make_search_path default_path path_of_env (input_of (cmd a)))).

  Lemma pushed i p : In p (path_order (pushed_paths (in_file i) (make_search_path default_path path_of_env i))) <-> looked_in i p.
  Proof.
    assert (E : In p (path_order (pushed_paths (in_file i) (make_search_path default_path path_of_env i)))
                <-> In p (pushed_paths (in_file i) (make_search_path default_path path_of_env i)))
      by (split; apply Permutation_in; [apply Orders|symmetry; apply Orders]).
    rewrite E. unfold pushed_paths. rewrite (proj2 (push_all _ _)), (proj2 (push_all _ _)).
    unfold looks_in, make_search_path. destruct (default_search_env i); [|destruct (search_env i) as [v|]]; cbn [option_map].
    - split; [intros [[[]|I]|I]|intros [I|[[_ I]|[X _]]]]; try discriminate X; auto.
    - split; [intros [[[]|I]|I]|intros [I|[[X _]|[_ (w & [= <-] & I)]]]]; try discriminate X; eauto 7.
    - split; [intros [[[]|[]]|I]; auto|intros [I|[[X _]|[_ (w & X & _)]]]; try discriminate X; auto].
  Qed.
  Lemma input_makes a m : assembled a = Ok m -> made_of_input a m.
  Proof.
    intros A. unfold assemble_model in A. set (ps := path_order _) in A.
    destruct (P37_Readers.C72_assembled H json_floats idl_floats root ps Tree) as [Iff S]. destruct (S m A) as (W & ms & R & C).
    exists (expand_file_paths registry root ps), ms. split; [|split; [exact R|split; [|split; [exact C|exact W]]]].
    - intros q. rewrite (proj1 (P09_Assembler.C38_files_read registry root ps Tree)). unfold ps.
      split; intros [(p & I & B) M]; (split; [|exact M]); exists p; (split; [apply pushed, I|exact B]).
    - destruct (proj1 Iff (ex_intro _ m A)) as (ms' & R' & P). replace ms with ms'; [exact P|].
      clear - R R'. revert ms' R'. induction R as [|q x qs ms (c & e & ft & N & X & G & E) R IH]; intros ms' R'; inversion R' as [|? ? ? ? (c' & e' & ft' & N' & X' & G' & E') ? ]; subst; [reflexivity|].
      f_equal; [|apply IH; assumption]. apply path_extension_spec in X, X'. rewrite X in X'. injection X' as <-. rewrite N in N'. injection N' as <-.
      rewrite G in G'. injection G' as <-. rewrite E in E'. injection E' as <-. reflexivity.
  Qed.

  (** Whatever a sub-command works on is made of the files below the places where it looks. *)
  Theorem C74_inputs :
    forall (a : command_line) (m : model),
      assemble_model json_reader smithy_reader path_order root (in_file (input_of (cmd a)))
        (make_search_path default_path path_of_env (input_of (cmd a))) = Ok m -> made_of_input a m.
  Proof. exact input_makes. Qed.

  (** [lint] and [validate] end well exactly when they have a model; then they print what the linters or the
      validators say of that model, in colour unless [--no-color] is given. *)
  Theorem C74_lint_and_validate :
    forall (a : command_line) (i : file_input),
      (cmd a = SubLint i ->
         ((ended (tool (command_of a)) = Exit0 <-> exists m, assembled a = Ok m)
          /\ (ended (tool (command_of a)) = Exit0 -> exists m is,
                made_of_input a m /\ standard_model_lint camel mixed snake m false = Ok is
                /\ printed (tool (command_of a)) = report_action_issues yellow bright_red bold underline dimmed is (negb (no_color a)))))
      /\ (cmd a = SubValidate i ->
         ((ended (tool (command_of a)) = Exit0 <-> exists m, assembled a = Ok m)
          /\ (ended (tool (command_of a)) = Exit0 -> exists m is,
                made_of_input a m /\ standard_model_validation m false = Ok is
                /\ printed (tool (command_of a)) = report_action_issues yellow bright_red bold underline dimmed is (negb (no_color a))))).
  Proof.
    intros a i.
    destruct (P20_Cli.C51_exit json_reader smithy_reader json_pretty render f64_str debug_str camel mixed snake safe_label yellow bright_red bold
                underline dimmed has_source path_order ns_order root (in_file i) (make_search_path default_path path_of_env i) (negb (no_color a))) as [V L].
    split; intros E; unfold parse_args; rewrite E; cbn [input_of].
    - split.
      + rewrite L. destruct (assemble_model _ _ _ _ _ _) as [m|e|]; split; intros X; try discriminate X; eauto; destruct X as (m' & X); discriminate X.
      + rewrite L. cbn [main]. unfold lint_file. destruct (assemble_model _ _ _ _ _ _) as [m|e|] eqn:A; intros X; try discriminate X.
        cbn [main] in L. unfold lint_file in L. rewrite A in L. cbn [rbind] in *.
        destruct (standard_model_lint camel mixed snake m false) as [is|e|] eqn:S; try discriminate L. exists m, is.
        split; [apply input_makes; rewrite E; exact A|]. split; [exact S|reflexivity].
    - split.
      + rewrite V. destruct (assemble_model _ _ _ _ _ _) as [m|e|]; split; intros X; try discriminate X; eauto; destruct X as (m' & X); discriminate X.
      + rewrite V. cbn [main]. unfold validate_file. destruct (assemble_model _ _ _ _ _ _) as [m|e|] eqn:A; intros X; try discriminate X.
        cbn [main] in V. unfold validate_file in V. rewrite A in V. cbn [rbind] in *.
        destruct (standard_model_validation m false) as [is|e|] eqn:S; try discriminate V. exists m, is.
        split; [apply input_makes; rewrite E; exact A|]. split; [exact S|reflexivity].
  Qed.

  (** [convert] and [document] print what is made of that model; without a model they print nothing. *)
  Theorem C74_convert_and_document :
    forall (a : command_line) (i : file_input) (out_file : option path) (format : file_format) (namespace : option str),
      (cmd a = SubConvert i out_file format namespace ->
         printed (tool (command_of a)) <> [] -> exists m text,
           made_of_input a m /\ write_model json_pretty f64_str debug_str ns_order root m out_file format namespace = Ok text
           /\ tool (command_of a) = Outcome text Exit0)
      /\ (cmd a = SubDocument i out_file ->
         printed (tool (command_of a)) <> [] -> exists m, made_of_input a m /\ ended (tool (command_of a)) = Exit0).
  Proof.
    intros a i out format namespace. split; intros E; unfold parse_args; rewrite E; cbn [main input_of].
    - unfold convert_file_format. destruct (assemble_model _ _ _ _ _ _) as [m|e|] eqn:A; cbn [rbind done printed]; intros P; try (exfalso; apply P; reflexivity).
      destruct (write_model _ _ _ _ _ m out format namespace) as [text|e|] eqn:W; cbn [done printed] in *; try (exfalso; apply P; reflexivity).
      exists m, text. split; [apply input_makes; rewrite E; exact A|]. split; [exact W|reflexivity].
    - unfold document_file. destruct (assemble_model _ _ _ _ _ _) as [m|e|] eqn:A; cbn [rbind done printed]; intros P; try (exfalso; apply P; reflexivity).
      exists m. split; [apply input_makes; rewrite E; exact A|]. revert P. match goal with |- printed (done _ ?r) <> [] -> _ => destruct r end; cbn; congruence.
  Qed.
End Tool.
Print Assumptions C74_inputs.
Print Assumptions C74_lint_and_validate.
Print Assumptions C74_convert_and_document.

(** As a sub-command of cargo and on its own, the tool understands the same. *)
Theorem C74_cargo :
  forall default_path path_of_env (structopt : list str -> option command_line) (program : str) (words : list str),
    hd_error words <> Some (lit "atelier") ->
    parse default_path path_of_env structopt (program :: lit "atelier" :: words) = parse default_path path_of_env structopt (program :: words)
    /\ parse default_path path_of_env structopt (program :: words) = option_map (parse_args default_path path_of_env) (structopt (program :: words)).
Proof.
  intros d e structopt program words N. destruct (P20_Cli.C51_command_line program words) as [A B]. unfold parse. rewrite A, (B N). split; reflexivity.
Qed.
Print Assumptions C74_cargo.

(** [atelier validate -i src] in the project of C73, with and without the standard search path. *)
From Verif.Props Require P38_Projects.
Example C74_ex :
  (exists m, @assemble_model zero_hasher (@read_json_model (fun _ => None) zero_hasher) (@parse_model P12_Smithy.zero_parse zero_hasher) (fun l => l)
               P38_Projects.project [[lit "src"]] (make_search_path [] (fun _ => []) (FileInput [[lit "src"]] false None)) = Ok m)
  /\ node_ok P38_Projects.project
  /\ parse [[lit "lib"]] (fun v => [[v]]) (fun ws => if str_eqb (nth 1 ws []) (lit "validate") then Some (CommandLine true (SubValidate (FileInput [[lit "src"]] true (Some (lit "V"))))) else None)
       [lit "cargo-atelier"; lit "atelier"; lit "validate"]
     = Some (Validate [[lit "src"]] (Some [[lit "lib"]]) false)
  /\ parse [[lit "lib"]] (fun v => [[v]]) (fun _ => Some (CommandLine false (SubLint (FileInput [[lit "src"]] false (Some (lit "V")))))) [lit "cargo-atelier"; lit "lint"]
     = Some (Lint [[lit "src"]] (Some [[lit "V"]]) true).
Proof.
  split; [|split; [|split; reflexivity]].
  - destruct P38_Projects.C73_ex as (m & A & _). exists m. exact A.
  - apply no_dir; [cbn; solve_distinct|]. apply Forall_cons; [|apply Forall_nil]. apply no_dir; [cbn [map snd]; solve_distinct|].
    cbn [snd]. repeat (apply Forall_cons; [apply no_file|]). apply Forall_nil.
Qed.
