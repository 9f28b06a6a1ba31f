(** What the command line tool must print. *)
From Verif.Model Require Import Actions Base.
From Verif.Spec Require Import IdentitySpec ModelSpec ActionsSpec.

(** ** Reading a report back *)
(** Level, message, reporter, element (empty if there is none). *)
Definition seen : Type := level * str * str * str.
Fixpoint strip (prefix s : str) : option str :=
  match prefix, s with
  | [], _ => Some s
  | c :: prefix', d :: s' => if Ascii.eqb c d then strip prefix' s' else None
  | _, [] => None
  end.
Definition read_head (line : str) : option (level * str) :=
  match strip (lit "[info] ") line, strip (lit "[warning] ") line, strip (lit "[error] ") line with
  | Some t, _, _ => Some (Info, t)
  | _, Some t, _ => Some (Warning, t)
  | _, _, Some t => Some (Error, t)
  | _, _, _ => None
  end.
(** The text up to the first space, and the text after it. *)
Fixpoint first_word (s : str) : str * str :=
  match s with
  | [] => ([], [])
  | c :: s' => if Ascii.eqb c " " then ([], s') else let (a, b) := first_word s' in (c :: a, b)
  end.
Definition read_source (line : str) : option (str * str) :=
  match strip (ascii_of_N 9 :: lit "Reported by ") line with
  | Some t =>
      let (reporter, rest) := first_word t in
      match strip (lit "for element ") rest with
      | Some e => match rev e with "."%char :: e' => Some (reporter, rev e') | _ => None end
      | None => None
      end
  | None => None
  end.
Fixpoint read_entries (lines : list str) : option (list seen) :=
  match lines with
  | [[]] => Some []
  | head :: source :: [] :: rest =>
      match read_head head, read_source source, read_entries rest with
      | Some (l, msg), Some (rep, e), Some others => Some ((l, msg, rep, e) :: others)
      | _, _, _ => None
      end
  | _ => None
  end.
Definition read_report (text : str) : option (list seen) :=
  match split_on (ascii_of_N 10) text with
  | [[]; line; []] => if str_eqb line (lit "No issues reported.") then Some [] else None
  | [] :: lines => read_entries lines
  | _ => None
  end.

(** ** What a report is about *)
Definition entry (i : issue) : seen :=
  (i_level i, i_message i, i_reporter i, match i_locus i with Some id => id_text id | None => [] end).
Definition one_line (s : str) : Prop := ~ In (ascii_of_N 10) s.
Definition tidy (i : issue) : Prop :=
  one_line (i_message i) /\ one_line (i_reporter i) /\ ~ In " "%char (i_reporter i)
  /\ match i_locus i with Some id => valid_id id | None => True end.

Section WithHasher.
  Context `{Hasher}.
  (** Nothing to complain about: all shapes are known, every reference is to a shape of the right kind in the model or
      to the prelude, no simple shape is a mere synonym. *)
  Definition clean (m : model) : Prop :=
    forall s, stored m s ->
      ts_body s <> KUnresolved
      /\ (forall n t x, refers (ts_body s) n t -> model_shape m t = Some x -> fits n (ts_body x))
      /\ (forall n t, refers (ts_body s) n t -> model_shape m t = None -> sid_ns t = lit "smithy.api")
      /\ (forall p, ts_body s = KSimple p -> ts_traits s <> []).
End WithHasher.
(** Ids are ids and member names are names. *)
Definition names_of (b : shape_kind) : list str :=
  match b with
  | KList m | KSet m => [ms_id m]
  | KMap k v => [ms_id k; ms_id v]
  | KStructure ms | KUnion ms => map (fun e => ms_id (snd e)) ms
  | KResource r => map fst (rs_identifiers r)
  | _ => []
  end.
Definition well_named (m : model) : Prop :=
  forall s, stored m s ->
    (forall p i, id_at s p i -> valid_id i) /\ (forall n t, refers (ts_body s) n t -> valid_id t)
    /\ Forall is_identifier (names_of (ts_body s)).
