(** Model of cargo-atelier/src/command_line.rs: from parsed arguments to what is run.  structopt's parser, which makes
    the arguments out of words, and crate search_path, which makes directories out of an environment variable, are
    parameters. The verbosity is not used by the code and left out, and the output format of [Document] is somedoc's
    (a parameter of [Cli.main]). *)
From Verif.Model Require Import Cli.

(** [FileInput], command_line.rs:29-42. *)
Record file_input := FileInput {
  in_file : list Assembler.path;
  default_search_env : bool;
  search_env : option str
}.
(** [SubCommand], command_line.rs:44-90. *)
Inductive sub_command :=
| SubLint (i : file_input)
| SubValidate (i : file_input)
| SubConvert (i : file_input) (out_file : option Assembler.path) (write_format : file_format) (namespace : option str)
| SubDocument (i : file_input) (out_file : option Assembler.path).
(** [CommandLine], command_line.rs:12-27. *)
Record command_line := CommandLine { no_color : bool; cmd : sub_command }.

Section Paths.
  (** [SearchPath::default()]; [SearchPath::new_or_default(name)]. *)
  Variable default_path : list Assembler.path.
  Variable path_of_env : str -> list Assembler.path.

  (** [make_search_path], command_line.rs:181-187. *)
  Definition make_search_path (i : file_input) : option (list Assembler.path) :=
    if default_search_env i then Some default_path else option_map path_of_env (search_env i).

  (** [parse], command_line.rs:96-162, after the arguments are parsed. *)
  Definition parse_args (a : command_line) : command :=
    let use_color := negb (no_color a) in
    match cmd a with
    | SubLint i => Lint (in_file i) (make_search_path i) use_color
    | SubValidate i => Validate (in_file i) (make_search_path i) use_color
    | SubConvert i out_file format namespace => Convert (in_file i) out_file format namespace (make_search_path i)
    | SubDocument i out_file => Describe (in_file i) out_file (make_search_path i)
    end.
  (** [parse], 96-162: [from_iter] leaves the process if the words are not understood ([None]). *)
  Definition parse (structopt : list str -> option command_line) (words : list str) : option command :=
    option_map parse_args (structopt (check_command_line words)).
End Paths.
