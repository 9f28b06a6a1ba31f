(** Specification vocabulary: a model kept in several files (C73). *)
From Coq Require Import Sorting.Permutation.
From Verif.Model Require Import Json JsonText SmithyWrite Assembler.
From Verif.Spec Require Export AssemblerSpec JsonTextSpec EqualitySpec ReaderSpec.
From Verif.Spec Require JsonSpec SmithySpec.

Section WithHasher.
  Context `{Hasher}.
  (** A shape that is only mentioned. *)
  Definition only_mentioned (s : shape) : Prop := ts_traits s = [] /\ ts_body s = KUnresolved.
  (** [ws] are the parts of [m]: every entry of the metadata and every shape is in exactly one of them, and
      nothing else is in any, but that shapes of the other parts may be mentioned. *)
  Definition parts_of (m : model) (ws : list model) : Prop :=
    (forall w, In w ws -> m_version w = m_version m /\ model_ok w)
    /\ (forall w k v, In w ws -> In (k, v) (m_metadata w) -> In (k, v) (m_metadata m))
    /\ (forall k v, In (k, v) (m_metadata m) ->
          exists w rest, Permutation ws (w :: rest) /\ In (k, v) (m_metadata w)
                         /\ forall w', In w' rest -> ~ In (k, v) (m_metadata w'))
    /\ (forall w k s, In w ws -> In (k, s) (m_shapes w) ->
          In (k, s) (m_shapes m) \/ only_mentioned s /\ model_shape m k <> None)
    /\ (forall k s, In (k, s) (m_shapes m) ->
          exists w rest, Permutation ws (w :: rest) /\ In (k, s) (m_shapes w)
                         /\ forall w' s', In w' rest -> model_shape w' k = Some s' -> only_mentioned s').

  Variable json_floats : str -> option Z.
  Variable idl_floats : str -> Z.
  Variables (json_float_text idl_float_text : Z -> str) (debug_str : str -> str).
  (** The file [q] holds [w] as it is written: as JSON or in the IDL, in a form that keeps all of [w]. *)
  Inductive file_holds (root : node) (q : path) (w : model) : Prop :=
  | holds_json e pretty_print j :
      has_extension q e -> same_name e (lit "json") -> Json.model_to_json w = Ok j ->
      node_at root q = Some (NFile (json_text json_float_text pretty_print j)) ->
      JsonSpec.model_writable w -> model_printable json_floats json_float_text w -> JsonSpec.json_faithful w -> file_holds root q w
  | holds_idl e ns :
      has_extension q e -> same_name e (lit "smithy") ->
      node_at root q = Some (NFile (write_smithy idl_float_text debug_str ns w)) ->
      SmithySpec.model_writable idl_float_text debug_str idl_floats ns w -> SmithySpec.all_kept ns w -> file_holds root q w.
End WithHasher.
