(** What a PlantUML class diagram says, read line by line, and which diagram a model must have. *)
From Verif.Model Require Import SemModel.
From Verif.Spec Require Import IdentitySpec.
From Verif.Spec Require GraphMLSpec.

(** ** Reading a diagram *)
Inductive item :=
| Package (name : str)                                        (* package NAME { *)
| PackageEnd                                                  (* } *)
| Class (keyword name : str) (mark : option str) (body : list str) (* class NAME <<MARK>> { .. } *)
| Note (several : bool) (name : str) (text : str)             (* note TEXT as NAME, or the form for several lines *)
| Link (a arrow b : str)                                      (* A ARROW B *)
| Other (line : str).

Definition newline : ascii := "010".
Definition space : ascii := " ".
Fixpoint unindent (l : str) : str :=
  match l with c :: l' => if Ascii.eqb c space then unindent l' else l | [] => [] end.
Definition words (l : str) : list str := split_on space l.
Definition is (a : str) (b : string) : bool := str_eqb a (lit b).

(** Within a class or a note, or in neither. *)
Inductive mode :=
| Top
| InClass (keyword name : str) (mark : option str) (body : list str)
| InNote (name : str) (text : list str).

(** What one line in neither says: a whole item, or the beginning of one. *)
Definition read_note (ws : list str) : option (str * str) :=
  match rev ws with
  | name :: as_ :: text => if is as_ "as" then Some (name, join [space] (rev text)) else None
  | _ => None
  end.
Definition read_class (keyword name : str) (rest : list str) : option (item + mode) :=
  match rest with
  | [o] => if is o "{" then Some (inr (InClass keyword name None [])) else None
  | [mark; o] => if is o "{" then Some (inr (InClass keyword name (Some mark) [])) else None
  | [mark; o; c] => if is o "{" && is c "}" then Some (inl (Class keyword name (Some mark) [])) else None
  | _ => None
  end.
Definition or_other (l : str) (o : option (item + mode)) : item + mode :=
  match o with Some x => x | None => inl (Other l) end.
(** -- *-- <|-- ..> and the like. *)
Definition is_arrow (w : str) : bool :=
  match w with [] => false | _ => forallb (fun c => existsb (Ascii.eqb c) (lit ".-*<>|")) w end.
Definition read_keyword (l : str) : item + mode :=
  match words l with
  | [w] => if is w "}" then inl PackageEnd else inl (Other l)
  | w :: n :: rest =>
      if is w "package" then
        match rest with [o] => if is o "{" then inl (Package n) else inl (Other l) | _ => inl (Other l) end
      else if is w "class" || is w "annotation" then or_other l (read_class w n rest)
      else if is w "note" then
        if is n "as" then match rest with [name] => inr (InNote name []) | _ => inl (Other l) end
        else or_other l (option_map (fun p => inl (Note false (fst p) (snd p))) (read_note (n :: rest)))
      else inl (Other l)
  | [] => inl (Other l)
  end.
Definition read_line (l : str) : item + mode :=
  match words l with
  | [a; w; b] => if is_arrow w then inl (Link a w b) else read_keyword l
  | _ => read_keyword l
  end.

Fixpoint read (md : mode) (ls : list str) : option (list item) :=
  match ls with
  | [] => match md with Top => Some [] | _ => None end
  | line :: ls' =>
      let l := unindent line in
      match md with
      | Top =>
          match l with
          | [] => read Top ls'
          | _ => match read_line l with
                 | inl i => option_map (cons i) (read Top ls')
                 | inr md' => read md' ls'
                 end
          end
      | InClass k n mk body =>
          if is l "}" then option_map (cons (Class k n mk (rev body))) (read Top ls')
          else read (InClass k n mk (l :: body)) ls'
      | InNote n text =>
          if is l "end note" then option_map (cons (Note true n (join [newline] (rev text)))) (read Top ls')
          else read (InNote n (l :: text)) ls'
      end
  end.
Definition read_diagram (text : str) : option (list item) := read Top (split_on newline text).

(** ** The diagram of a model *)
Section Diagram.
  Context `{Hasher}.
  Variables (f64_str : Z -> str) (debug_str : str -> str) (expand : bool).

  Definition trait_api : shape_id := SID "smithy.api" "trait" None.
  Definition error_api : shape_id := SID "smithy.api" "error" None.
  Definition documentation_api : shape_id := SID "smithy.api" "documentation" None.

  (** The traits shown in the class: all but error and documentation (whatever the letter case). *)
  Definition shown (t : shape_id * option value) : bool :=
    negb (sid_eqb (fst t) error_api) && negb (sid_eqb (fst t) documentation_api).
  Definition trait_value (v : option value) : str :=
    match v with
    | None | Some VNone => []
    | Some (VString s) => lit " = """ ++ s ++ lit """"
    | Some (VNumber (NInteger z)) => lit " = " ++ int_to_str z
    | Some (VNumber (NFloat b)) => lit " = " ++ f64_str b
    | Some (VBoolean true) => lit " = true"
    | Some (VBoolean false) => lit " = false"
    | Some (VArray _) => lit " = [ .. ]"
    | Some (VObject _) => lit " = { .. }"
    end.
  Definition trait_lines (ts : traits) : list str :=
    match filter shown ts with
    | [] => []
    | l => map (fun t => "@"%char :: id_text (fst t) ++ trait_value (snd t)) l ++ [lit ".."]
    end.

  (** The texts of the documentation traits. *)
  Definition documentation (ts : traits) : list str :=
    flat_map (fun t => if sid_eqb (fst t) error_api then []
                       else if sid_eqb (fst t) documentation_api
                       then match snd t with Some (VString s) => [s] | _ => [] end else []) ts.
  (** A note and the line to it from the shape, for each; the form for several lines where there are several. *)
  Fixpoint notes (id : shape_id) (n : nat) (docs : list str) : list item :=
    match docs with
    | [] => []
    | d :: docs' =>
        let name := id_text id ++ lit "_note_" ++ nat_to_str (Z.of_nat n) in
        Note (if in_dec Ascii.ascii_dec newline d then true else false) name (debug_str d) :: Link (id_text id) (lit "..") name :: notes id (S n) docs'
    end.

  Definition field (name type : str) : str := name ++ lit ": " ++ type.
  (** The name of the type of an input or an output. *)
  Definition shown_type (m : model) (id : shape_id) : str :=
    match model_shape m id with
    | Some (Shape _ _ (KSimple s)) => GraphMLSpec.type_name (KSimple s)
    | Some (Shape _ _ (KList e)) => lit "List<" ++ sid_name (ms_target e) ++ lit ">"
    | Some (Shape _ _ (KSet e)) => lit "Set<" ++ sid_name (ms_target e) ++ lit ">"
    | Some (Shape _ _ (KMap k v)) =>
        lit "Map<" ++ sid_name (ms_target k) ++ lit ", " ++ sid_name (ms_target v) ++ lit ">"
    | _ => id_text id
    end.
  (** An operation as a method, under its own id or another name. *)
  Definition method (m : model) (label : option str) (id : shape_id) : str :=
    match model_shape m id with
    | Some (Shape own _ (KOperation o)) =>
        match label with Some l => l | None => id_text own end
        ++ lit "(in: " ++ match op_input o with Some i => shown_type m i | None => [] end ++ lit ")"
        ++ match op_output o with Some i => lit ": " ++ shown_type m i | None => [] end
    | _ => []
    end.
  Definition methods (m : model) (heading : string) (ids : list shape_id) : list str :=
    match ids with [] => [] | _ => (lit ".." ++ lit heading ++ lit "..") :: map (method m None) ids end.
  Definition lifecycle (r : resource) : list shape_id :=
    flat_map GraphMLSpec.maybe [rs_create r; rs_put r; rs_read r; rs_update r; rs_delete r; rs_list r].

  Definition mark (s : string) : str := lit "<<" ++ lit s ++ lit ">>".
  Definition class_of (s : shape) (union : bool) (members : members) : item :=
    let fields := map (fun e => field (ms_id (snd e)) (id_text (ms_target (snd e)))) members in
    let body := trait_lines (ts_traits s) ++ fields in
    if has_trait trait_api (ts_traits s) then Class (lit "annotation") (id_text (ts_id s)) None body
    else Class (lit "class") (id_text (ts_id s))
           (if has_trait error_api (ts_traits s) then Some (mark "error")
            else if union then Some (mark "union") else None) body.
  Definition owns (id : shape_id) (rs : list shape_id) : list item :=
    map (fun r => Link (id_text id) (lit "*--") (id_text r)) rs.

  Definition prose (d : str) : list item :=
    flat_map (fun l => match unindent l with [] => [] | l' => [Other l'] end) (split_on newline d).
  Definition shape_diagram (m : model) (s : shape) : list item :=
    let id := ts_id s in
    let docs := documentation (ts_traits s) in
    match ts_body s with
    | KSimple t =>
        Class (lit "class") (id_text id) (Some (mark "dataType")) (trait_lines (ts_traits s))
        :: flat_map prose docs
        ++ (if expand then [Link (lit "smithy.api." ++ GraphMLSpec.type_name (KSimple t)) (lit "<|--") (id_text id)] else [])
    | KService sv =>
        Class (lit "class") (id_text id) (Some (mark "service"))
          (trait_lines (ts_traits s) ++ [lit "version: string = """ ++ sv_version sv ++ lit """"]
           ++ map (method m None) (sv_operations sv))
        :: notes id 0 docs ++ owns id (sv_resources sv)
    | KResource r =>
        Class (lit "class") (id_text id) (Some (mark "resource"))
          (trait_lines (ts_traits s)
           ++ map (fun e => field (fst e) (id_text (snd e))) (rs_identifiers r)
           ++ map (method m (Some (lit "create"))) (lifecycle r)
           ++ methods m "operations" (rs_operations r)
           ++ methods m "collectionOperations" (rs_collection_operations r))
        :: notes id 0 docs ++ owns id (rs_resources r)
    | KStructure ms => class_of s false ms :: notes id 0 docs
    | KUnion ms => class_of s true ms :: notes id 0 docs
    | _ => []
    end.

  Definition primitives : list item :=
    Package (lit "smithy.api")
    :: map (fun s => Class (lit "class") (GraphMLSpec.type_name (KSimple s)) (Some (mark "primitive")) [])
         [SBlob; SBoolean; SDocument; SString; SByte; SShort; SInteger; SLong; SFloat; SDouble;
          SBigInteger; SBigDecimal; STimestamp]
    ++ [PackageEnd].
  Definition package_diagram (m : model) (ns : str) : list item :=
    Package ns :: flat_map (fun e => shape_diagram m (snd e)) (m_shapes m)
    ++ PackageEnd :: (if expand then [Link ns (lit "..>") (lit "smithy.api")] else []).
  Definition diagram (ns_order : list str) (m : model) : list item :=
    [Other (lit "@startuml"); Other (lit "hide empty members")]
    ++ (if expand then primitives else [])
    ++ flat_map (package_diagram m) ns_order
    ++ [Other (lit "@enduml")].

  (** ** The models considered *)
  (** The operations a service or resource names. *)
  Definition operations_of (b : shape_kind) : list shape_id :=
    match b with
    | KService s => sv_operations s
    | KResource r => lifecycle r ++ rs_operations r ++ rs_collection_operations r
    | _ => []
    end.
  (** All of them are operations of the model. *)
  Definition operations_known (m : model) : Prop :=
    forall k s id, In (k, s) (m_shapes m) -> In id (operations_of (ts_body s)) ->
      exists id' ts o, model_shape m id = Some (Shape id' ts (KOperation o)).

  Definition one_line (s : str) : Prop := ~ In newline s.
  (** A line that is blank or prose. *)
  Definition plain (l : str) : Prop := unindent l = [] \/ read_line (unindent l) = inl (Other (unindent l)).
  Definition valid_shape (s : shape) : Prop :=
    valid_id (ts_id s)
    /\ (forall t v, In (t, v) (ts_traits s) -> valid_id t)
    /\ (forall n t, In (n, t) (GraphMLSpec.targets (ts_body s)) -> is_identifier n /\ valid_id t)
    /\ (forall r n t, ts_body s = KResource r -> In (n, t) (rs_identifiers r) -> is_identifier n /\ valid_id t).
  (** Traits and versions of one line; on simple shapes, documentation whose lines are plain. *)
  Definition tame_shape (s : shape) : Prop :=
    (forall t v, In (t, Some (VString v)) (ts_traits s) -> sid_eqb t documentation_api = false -> one_line v)
    /\ (forall sv, ts_body s = KService sv -> one_line (sv_version sv))
    /\ (forall st d, ts_body s = KSimple st -> In d (documentation (ts_traits s)) -> Forall plain (split_on newline d)).
  Definition tame (m : model) : Prop := forall k s, In (k, s) (m_shapes m) -> valid_shape s /\ tame_shape s.
End Diagram.
