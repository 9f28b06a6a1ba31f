(** Model of atelier-rdf/src/reader.rs: a model out of an RDF graph. Only the root of the model is read;
    the function that should read a shape is [unimplemented!()]. *)
From Verif.Model Require Export Rdf.
From Verif.Model Require Json.

(** Equality of terms in rdftk_core (outside the repository): that of the IRIs, blank node names and
    literals. *)
Definition datatype_eqb (a b : datatype) : bool :=
  match a, b with
  | DPlain, DPlain | DLong, DLong | DDouble, DDouble | DBoolean, DBoolean => true
  | _, _ => false
  end.
Definition opt_eqb (a b : option str) : bool :=
  match a, b with Some x, Some y => str_eqb x y | None, None => true | _, _ => false end.
Definition iri_eqb (a b : iri) : bool :=
  opt_eqb (iri_scheme a) (iri_scheme b) && opt_eqb (iri_authority a) (iri_authority b)
  && str_eqb (iri_path a) (iri_path b) && opt_eqb (iri_query a) (iri_query b)
  && opt_eqb (iri_fragment a) (iri_fragment b).
Definition term_eqb (a b : term) : bool :=
  match a, b with
  | TIri i, TIri j => iri_eqb i j
  | TBlank n, TBlank k => Nat.eqb n k
  | TLit s d, TLit t e => str_eqb s t && datatype_eqb d e
  | _, _ => false
  end.
(** [HashSet::from_iter]: each term once. *)
Fixpoint to_set (l : list term) : list term :=
  match l with
  | [] => []
  | x :: l' => let r := to_set l' in if existsb (term_eqb x) r then r else x :: r
  end.
(** [Graph::objects_for], [contains_all] and [matches] of rdftk_core. *)
Definition objects_for (g : graph) (s : term) (p : iri) : list term :=
  to_set (map st_object (filter (fun t => term_eqb (st_subject t) s && iri_eqb (st_predicate t) p) (g_statements g))).
Definition contains_all (g : graph) (s : term) (p : iri) (o : term) : bool :=
  existsb (fun t => term_eqb (st_subject t) s && iri_eqb (st_predicate t) p && term_eqb (st_object t) o) (g_statements g).
Definition matches (g : graph) (p : iri) (o : term) : list statement :=
  filter (fun t => iri_eqb (st_predicate t) p && term_eqb (st_object t) o) (g_statements g).

(** [rdf_literal_string], reader.rs:84-120; of the error only the name is kept. *)
Definition rdf_literal_string (g : graph) (s : term) (p : iri) (name : string) (data_type : option datatype) : result str :=
  match objects_for g s p with
  | [TLit text d] =>
      match data_type with
      | Some d' => if datatype_eqb d d' then Ok text else Err (EDeserialization (lit name))
      | None => Ok text
      end
  | _ => Err (EDeserialization (lit name))
  end.

(** [rdf_model_subject], reader.rs:122-157. *)
Definition rdf_model_subject (g : graph) (model_iri : option iri) : result term :=
  let model_object := TIri (smithy "Model") in
  match model_iri with
  | Some i =>
      let subject := TIri i in
      if contains_all g subject a_type model_object then Ok subject else Err (EDeserialization (lit "model"))
  | None =>
      match to_set (map st_subject (matches g a_type model_object)) with
      | [subject] => Ok subject
      | _ => Err (EDeserialization (lit "model"))
      end
  end.

(** [rdf_to_shape], reader.rs:159-174: [unimplemented!()]. *)
Definition rdf_to_shape (g : graph) (o : term) : result shape := Panic.

Section Reader.
  Context `{H : Hasher}.
  (** The loop of [rdf_to_model], reader.rs:63-66. *)
  Fixpoint add_shapes (g : graph) (l : list term) (m : model) : result model :=
    match l with
    | [] => Ok m
    | o :: l' =>
        s <- rdf_to_shape g o ;;
        match add_shape m s with (_, Panic) => Panic | (m', _) => add_shapes g l' m' end
    end.
  (** [rdf_to_model], reader.rs:51-68. *)
  Definition rdf_to_model (g : graph) (model_iri : option iri) : result model :=
    subject <- rdf_model_subject g model_iri ;;
    text <- rdf_literal_string g subject (smithy "smithy_version") "version" None ;;
    v <- Json.version_from_str text ;;
    add_shapes g (objects_for g subject (smithy "shape")) (model_new v).
  (** [RdfReader::read], reader.rs:74-78: [unimplemented!()]. *)
  Definition rdf_reader_read (text : str) : result model := Panic.
End Reader.
