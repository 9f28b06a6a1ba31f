(** Model of cargo-atelier/src/{lib,actions,report,command_line,bin/main}.rs: what a parsed command does.
    Parsing the arguments (structopt) is not modelled except for [check_command_line]. *)
From Verif.Model Require Export Actions.
From Verif.Model Require Json Assembler SmithyParse SmithyWrite PlantUml Document.

(** [FileFormat], lib.rs:26-30; [Display], 54-66; [FromStr], 68-79. *)
Inductive file_format := FJson | FSmithy | FUml.
Definition format_display (f : file_format) : str :=
  match f with FJson => lit "json" | FSmithy => lit "smithy" | FUml => lit "uml" end.
Definition format_from_str (s : str) : option file_format :=
  if str_eqb s (lit "json") then Some FJson
  else if str_eqb s (lit "smithy") then Some FSmithy
  else if str_eqb s (lit "uml") then Some FUml
  else None.

(** [check_command_line], command_line.rs:166-177: cargo passes the name of the sub-command. *)
Definition check_command_line (args : list str) : list str :=
  match args with
  | a :: b :: rest => if str_eqb b (lit "atelier") then a :: rest else args
  | _ => args
  end.

(** [TransformCommand], lib.rs:33-38, [DocumentCommand], 41-45, [Command], 18-23.  A [SearchPath] is its list of
    directories; of [Options] there is [use_color]. *)
Inductive command :=
| Lint (files : list Assembler.path) (search : option (list Assembler.path)) (use_color : bool)
| Validate (files : list Assembler.path) (search : option (list Assembler.path)) (use_color : bool)
| Convert (files : list Assembler.path) (out_file : option Assembler.path) (format : file_format) (namespace : option str)
    (search : option (list Assembler.path))
| Describe (files : list Assembler.path) (out_file : option Assembler.path) (search : option (list Assembler.path)).

(** How the process ends: the exit code, or a panic. *)
Inductive ending := Exit0 | Exit1 | Crash.
(** What is on standard output when it ends.  (After a panic something may have been written to standard output
    already; that is not modelled.) *)
Record outcome := Outcome { printed : str; ended : ending }.

Section Cli.
  Context `{Hasher}.
  (** The readers of the two file types, text by text; the JSON printer of serde_json; somedoc's renderer;
      [Display for f64] and [Debug for str]; heck's three functions; [Label::safe_from]; the styles of crate colored;
      whether an error has a [source]. *)
  Variables (json_reader smithy_reader : str -> result model).
  Variables (json_pretty : Json.json -> str) (render : Document.document -> str).
  Variables (f64_str : Z -> str) (debug_str : str -> str).
  Variables (camel mixed snake : str -> str) (safe_label : str -> str -> str).
  Variables (yellow bright_red bold underline dimmed : str -> str).
  Variable has_source : error -> bool.
  (** The orders in which the set of paths and a set of namespaces are iterated. *)
  Variables (path_order : list Assembler.path -> list Assembler.path) (ns_order : list str -> list str).
  (** The files. *)
  Variable root : Assembler.node.

  Definition newline : str := [ascii_of_N 10].
  Definition tab : str := [ascii_of_N 9].
  (** [Display for IssueLevel], atelier-core/src/action/mod.rs:190-202. *)
  Definition level_display (l : level) : str :=
    match l with Info => lit "info" | Warning => lit "warning" | Error => lit "error" end.
  Definition locus_text (o : option shape_id) : str := match o with Some id => sid_display id | None => [] end.
  (** [report_issue_no_color], report.rs:27-38. *)
  Definition report_issue_no_color (i : issue) : str :=
    lit "[" ++ level_display (i_level i) ++ lit "] " ++ i_message i ++ newline
    ++ tab ++ lit "Reported by " ++ i_reporter i ++ lit " for element " ++ locus_text (i_locus i) ++ lit "." ++ newline
    ++ newline.
  (** [report_issue], report.rs:45-70 (feature "color", the default). *)
  Definition report_issue (i : issue) : str :=
    match i_level i with
    | Info => lit "[info]"
    | Warning => yellow (lit "[warning]")
    | Error => bright_red (lit "[error]")
    end ++ lit " " ++ bold (i_message i) ++ newline
    ++ dimmed (tab ++ lit "Reported by " ++ i_reporter i
               ++ match i_locus i with
                  | Some id => lit " on/for element `" ++ underline (sid_display id) ++ lit "`"
                  | None => []
                  end ++ lit ".") ++ newline
    ++ newline.
  (** [report_action_issues], report.rs:11-25. *)
  Definition report_action_issues (issues : list issue) (color : bool) : str :=
    newline
    ++ match issues with
       | [] => lit "No issues reported." ++ newline
       | _ => flat_map (fun i => if color then report_issue i else report_issue_no_color i) issues
       end.

  (** [assemble_model], actions.rs:67-76, with [ModelAssembler::new] and [include_search_path],
      atelier-assembler/src/lib.rs:348-358 and 416-421: a set of paths. *)
  Definition pushed_paths (files : list Assembler.path) (search : option (list Assembler.path)) : list Assembler.path :=
    fold_left Assembler.push files
      (fold_left Assembler.push (match search with Some ps => ps | None => [] end) []).
  Definition assemble_model (files : list Assembler.path) (search : option (list Assembler.path)) : result model :=
    Assembler.assemble (Assembler.reg_default json_reader smithy_reader) root (path_order (pushed_paths files search)).

  (** [lint_file] and [validate_file], actions.rs:25-30 and 32-37. *)
  Definition lint_file (files : list Assembler.path) (search : option (list Assembler.path)) : result (list issue) :=
    m <- assemble_model files search ;; standard_model_lint camel mixed snake m false.
  Definition validate_file (files : list Assembler.path) (search : option (list Assembler.path)) : result (list issue) :=
    m <- assemble_model files search ;; standard_model_validation m false.

  (** The sink: standard output, or a file that [File::open] has opened, for reading.  Opening fails unless the
      file exists; writing to it fails. *)
  Definition io_error : error := EForeign (lit "io").
  Definition open_sink (out_file : option Assembler.path) : result bool :=
    match out_file with
    | None => Ok true
    | Some p => match Assembler.node_at root p with Some _ => Ok false | None => Err io_error end
    end.
  Definition put (to_stdout : bool) (text : str) (e : error) : result str := if to_stdout then Ok text else Err e.
  (** [write_model], actions.rs:78-109, with [write_json], [write_smithy], [write_uml], 145-165, and [transform_file]
      without a function, 111-128.  [PlantUmlWriter] writes a line first of all, the others prepare a text. *)
  Definition write_model (m : model) (out_file : option Assembler.path) (format : file_format) (namespace : option str) : result str :=
    file <- open_sink out_file ;;
    match format with
    | FJson => j <- Json.model_to_json m ;; put file (json_pretty j) (ESerialization (lit "json"))
    | FSmithy =>
        match namespace with
        | Some ns =>
            match ns_from_str ns with
            | Ok ns => put file (SmithyWrite.write_smithy f64_str debug_str ns m) io_error
            | _ => Panic
            end
        | None =>
            match namespaces m with
            | [ns] => put file (SmithyWrite.write_smithy f64_str debug_str ns m) io_error
            | _ => Panic
            end
        end
    | FUml => if file then PlantUml.plantuml_write f64_str debug_str false (ns_order (namespaces m)) m else Err io_error
    end.
  (** [convert_file_format], actions.rs:39-50; [document_file], 52-61, with [document_a_file], 130-143. *)
  Definition convert_file_format (files : list Assembler.path) (out_file : option Assembler.path) (format : file_format)
      (namespace : option str) (search : option (list Assembler.path)) : result str :=
    m <- assemble_model files search ;; write_model m out_file format namespace.
  Definition document_file (files : list Assembler.path) (out_file : option Assembler.path) (search : option (list Assembler.path)) : result str :=
    m <- assemble_model files search ;;
    d <- Document.describe_model f64_str safe_label (ns_order (namespaces m)) m ;;
    file <- open_sink out_file ;;
    put file (render d) io_error.

  (** [main], bin/main.rs:4-22.  The question marks of the first two arms leave [main] with an error; an error of the
      other two ends with [eprintln!] of its source, or a panic if it has none. *)
  Definition reported (issues : result (list issue)) (color : bool) : outcome :=
    match issues with
    | Ok l => Outcome (report_action_issues l color) Exit0
    | Err _ => Outcome [] Exit1
    | Panic => Outcome [] Crash
    end.
  Definition done (r : result str) : outcome :=
    match r with
    | Ok text => Outcome text Exit0
    | Err e => Outcome [] (if has_source e then Exit0 else Crash)
    | Panic => Outcome [] Crash
    end.
  Definition main (c : command) : outcome :=
    match c with
    | Lint files search color => reported (lint_file files search) color
    | Validate files search color => reported (validate_file files search) color
    | Convert files out_file format namespace search => done (convert_file_format files out_file format namespace search)
    | Describe files out_file search => done (document_file files out_file search)
    end.
End Cli.
