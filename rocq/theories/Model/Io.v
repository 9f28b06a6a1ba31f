(** Model of atelier-core/src/io/mod.rs: reading models from and writing them to strings and files. *)
From Verif.Model Require Export SemModel.
From Verif.Model Require Import Assembler.

(** What a [ModelWriter] (io/mod.rs:50-55) does with the sink it is given: it writes pieces of text one after
    the other, and gives up with an error of its own or, if the sink refuses a piece, with the error it makes
    of that ([?], [chain_err] or a [match] in the writers of the workspace). *)
Inductive writing :=
| WDone
| WFail (e : error)
| WPanic
| WPiece (text : str) (refused : error) (next : writing).
Notation model_writer := (model -> writing).

(** The tree with the content of the file at a path replaced. *)
Fixpoint node_put (n : node) (p : path) (content : str) : node :=
  match p, n with
  | [], NFile _ => NFile content
  | c :: p', NDir es =>
      NDir (hm_update str_eqb c (fun n' => node_put n' p' content) es)
  | _, _ => n
  end.

(** A sink: [Cursor<Vec<u8>>], or a [File] at a path that was opened for writing or only for reading. *)
Inductive sink := SBuffer (written : str) | SFile (p : path) (writable : bool) (written : str).
(** [Write::write_all] (std). A file that is only open for reading refuses any piece that is not empty; what is
    written to a file takes the place of what was there. *)
Definition write_all (root : node) (s : sink) (text : str) : option (node * sink) :=
  match s with
  | SBuffer t => Some (root, SBuffer (t ++ text))
  | SFile p w t =>
      match text with
      | [] => Some (root, s)
      | _ => if w then Some (node_put root p (t ++ text), SFile p w (t ++ text)) else None
      end
  end.
Fixpoint run_writing (root : node) (s : sink) (w : writing) : node * sink * result unit :=
  match w with
  | WDone => (root, s, Ok tt)
  | WFail e => (root, s, Err e)
  | WPanic => (root, s, Panic)
  | WPiece text refused next =>
      match write_all root s text with
      | Some (root, s) => run_writing root s next
      | None => (root, s, Err refused)
      end
  end.

(** [File::open] (std): for reading only. *)
Definition io_error : error := EForeign (lit "io").
Definition file_open (root : node) (p : path) : result sink :=
  match node_at root p with Some _ => Ok (SFile p false []) | None => Err io_error end.

(** [String::from_utf8] (std): the well-formed sequences of Unicode, table 3-7. *)
Definition byte_in (lo hi : N) (c : ascii) : bool := in_range lo hi c.
Fixpoint utf8 (fuel : nat) (s : str) : bool :=
  match fuel with
  | 0 => match s with [] => true | _ => false end
  | S fuel =>
      match s with
      | [] => true
      | a :: s1 =>
          if byte_in 0 127 a then utf8 fuel s1
          else match s1 with
               | [] => false
               | b :: s2 =>
                   if byte_in 194 223 a then byte_in 128 191 b && utf8 fuel s2
                   else match s2 with
                        | [] => false
                        | c :: s3 =>
                            if byte_in 224 239 a then
                              byte_in (if byte_in 224 224 a then 160 else 128) (if byte_in 237 237 a then 159 else 191) b
                              && byte_in 128 191 c && utf8 fuel s3
                            else match s3 with
                                 | [] => false
                                 | d :: s4 =>
                                     byte_in 240 244 a
                                     && byte_in (if byte_in 240 240 a then 144 else 128) (if byte_in 244 244 a then 143 else 191) b
                                     && byte_in 128 191 c && byte_in 128 191 d && utf8 fuel s4
                                 end
                        end
               end
      end
  end.
Definition from_utf8 (s : str) : option str := if utf8 (length s) s then Some s else None.

(** A [ModelReader] (io/mod.rs:60-65) as a function of the text it is given, and the error it makes of a source
    that cannot be read. *)
Record model_reader := Reader { rd_read : str -> result model; rd_broken : error }.

(** [read_model_from_string], io/mod.rs:76-83. *)
Definition read_model_from_string (r : model_reader) (s : str) : result model := rd_read r s.
(** [read_model_from_file], io/mod.rs:89-92; a directory can be opened but not read. *)
Definition read_model_from_file (root : node) (r : model_reader) (p : path) : result model :=
  _ <- file_open root p ;;
  match node_at root p with
  | Some (NFile content) => rd_read r content
  | _ => Err (rd_broken r)
  end.
(** [write_model_to_string], io/mod.rs:98-103. *)
Definition write_model_to_string (root : node) (w : model_writer) (m : model) : result str :=
  let '(_, s, r) := run_writing root (SBuffer []) (w m) in
  _ <- r ;;
  match s with
  | SBuffer t => match from_utf8 t with Some t => Ok t | None => Panic end
  | SFile _ _ _ => Panic
  end.
(** [write_model_to_file], io/mod.rs:109-117: the file is opened with [File::open]. *)
Definition write_model_to_file (root : node) (w : model_writer) (m : model) (p : path) : node * result unit :=
  match file_open root p with
  | Ok s => let '(root, _, r) := run_writing root s (w m) in (root, r)
  | Err e => (root, Err e)
  | Panic => (root, Panic)
  end.
