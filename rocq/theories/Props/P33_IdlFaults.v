(** C68: IDL documents with mistakes in them. *)
From Verif.Model Require Import SelectorParse SmithyParse SmithyWrite Builder.
From Verif.Spec Require Import IdlFaultSpec Witness.
From Verif.Proofs Require Import BaseFacts HashMapFacts IdentityFacts SmithyValueFacts SmithyTraitFacts IdlDocFacts IdlFaultFacts.
From Verif.Proofs Require LayoutParse SelectorFacts.
From Verif.Props Require Import P12_Smithy P32_Idl.

Lemma raw_laid (f : str -> Z) (H : Hasher) d t : raw_laid_out d t -> parse_model f t = parse_model f (raw_document_text d).
Proof. intros [-> |S]; [reflexivity|]. symmetry. apply LayoutParse.layout_is_free, S. Qed.
Lemma raw_asked (f : str -> Z) (d : raw_document) :
  (raw_version_known f d -> asked_step f (rw_control d) = Ok V10)
  /\ (forall v, field_of (fields_of f (rw_control d)) "version" = Some (VString v) -> v <> lit "1" -> v <> lit "1.0" ->
      asked_step f (rw_control d) = Err (EInvalidVersionNumber (Some v)))
  /\ asked_step f (rw_control d) <> Panic.
Proof.
  unfold asked_step, asked, raw_version_known, field_of. fold (fields_of f (rw_control d)). split; [|split].
  - intros K. destruct (hm_get _ _ _) as [[]|]; try reflexivity. destruct (K _ eq_refl) as [-> | ->]; reflexivity.
  - intros v -> A B. unfold version_from_str. apply str_eqb_neq in A, B. rewrite A, B. reflexivity.
  - destruct (hm_get _ _ _) as [[]|]; try discriminate. unfold version_from_str. destruct (_ || _)%bool; discriminate.
Qed.

Lemma raw_builder d : dotted_name (rw_namespace (rw_section d)) -> builder_new V10 (rw_namespace (rw_section d)) = Ok (Builder (rw_namespace (rw_section d)) V10 [] []).
Proof.
  intros (ids & NE & F & E). unfold builder_new, ns_from_str. replace (ns_is_valid _) with true; [reflexivity|].
  symmetry. apply ns_is_valid_spec. exists ids. split; [exact NE|]. split; [|exact E]. apply (Forall_impl _ SelectorFacts.short_is_identifier), F.
Qed.
(* ---------------------------------------------------------------- C68 *)
(** A document all of whose statements mean something is read as the calls they stand for. *)
Theorem C68_accepted :
  forall (f64_parse : str -> Z) (H : Hasher) (d : raw_document) (t : str) (shapes : list shape_builder),
    raw_document_ok d -> raw_version_known f64_parse d -> raw_laid_out d t ->
    Forall2 (statement_means f64_parse) (rw_statements (rw_section d)) shapes ->
    exists b0 b,
      builder_new V10 (rw_namespace (rw_section d)) = Ok b0 /\ builder_run b0 (raw_calls f64_parse d shapes) = Ok b
      /\ parse_model f64_parse t = build b.
Proof.
  intros f H d t sbs O V L M. assert (D := O). destruct D as (_ & _ & DN & _ & ST).
  exists (Builder (rw_namespace (rw_section d)) V10 [] []). eexists. split.
  - apply raw_builder, DN.
  - split; [apply (raw_run f d sbs V10 O)|]. rewrite (raw_laid f H d t L), (parse_raw f d O), (proj1 (raw_asked f d) V). cbn [rbind]. unfold raw_result.
    assert (S : forall b, stepped (raw_step f) (rw_statements (rw_section d)) b = Ok (bd_all b sbs)) by (intros b; apply (stepped_ok f _ ST); eauto).
    rewrite S. reflexivity.
Qed.
Print Assumptions C68_accepted.

(** No document with a statement that means nothing is accepted. *)
Theorem C68_refused :
  forall (f64_parse : str -> Z) (H : Hasher) (d : raw_document) (t : str) (m : model),
    raw_document_ok d -> raw_laid_out d t ->
    Exists (meaningless f64_parse) (rw_statements (rw_section d)) ->
    parse_model f64_parse t <> Ok m.
Proof.
  intros f H d t m O L X. rewrite (raw_laid f H d t L), (parse_raw f d O). destruct (asked_step f (rw_control d)) as [v|e|]; cbn [rbind]; try discriminate.
  unfold raw_result. destruct (stepped _ _ _) as [b|e|] eqn:S; cbn [rbind]; try discriminate. exfalso.
  destruct O as (_ & _ & _ & _ & ST). apply (stepped_ok f _ ST) in S as (sbs & F & _). clear ST m t L v. revert X. induction F as [|s sb l sbs M F IH]; intros X; inversion X as [? ? Z|? ? Z]; subst.
  - apply (Z sb M).
  - apply (IH Z).
Qed.
Print Assumptions C68_refused.

(** Reading a document panics only at a service without a version, at a name that is not one, or where building does. *)
Theorem C68_panics_only :
  forall (f64_parse : str -> Z) (H : Hasher) (d : raw_document) (t : str),
    raw_document_ok d -> raw_laid_out d t -> parse_model f64_parse t = Panic ->
    (exists docs ts n b, In (RShape docs ts n b) (rw_statements (rw_section d)) /\ alarming f64_parse b)
    \/ exists shapes b0 b,
         Forall2 (statement_means f64_parse) (rw_statements (rw_section d)) shapes
         /\ builder_new V10 (rw_namespace (rw_section d)) = Ok b0 /\ builder_run b0 (raw_calls f64_parse d shapes) = Ok b /\ build b = Panic.
Proof.
  intros f H d t O L. rewrite (raw_laid f H d t L), (parse_raw f d O). assert (D := O). destruct D as (_ & _ & DN & _ & ST).
  destruct (asked_step f (rw_control d)) as [v|e|] eqn:A; cbn [rbind]; [|discriminate|destruct (proj2 (proj2 (raw_asked f d)) A)].
  assert (VV : v = V10) by (destruct v; reflexivity). subst v.
  unfold raw_result. destruct (stepped _ _ _) as [b|e|] eqn:S; cbn [rbind]; [|discriminate|].
  - intros B. right. apply (stepped_ok f _ ST) in S as (sbs & F & ->). exists sbs, (Builder (rw_namespace (rw_section d)) V10 [] []). eexists. split; [exact F|]. split.
    + apply raw_builder, DN.
    + split; [apply (raw_run f d sbs V10 O)|exact B].
  - intros _. left. apply (stepped_panic f _ ST) in S. apply Exists_exists in S as (s & I & docs & ts & n & b & -> & X). exists docs, ts, n, b. auto.
Qed.
Print Assumptions C68_panics_only.

(** A statement means one thing, and documents for other versions are refused. *)
Theorem C68_one_meaning :
  forall (f64_parse : str -> Z) (H : Hasher),
    (forall s a b, raw_statement_ok s -> statement_means f64_parse s a -> statement_means f64_parse s b -> a = b)
    /\ (forall d t v, raw_document_ok d -> raw_laid_out d t -> field_of (fields_of f64_parse (rw_control d)) "version" = Some (VString v) ->
        v <> lit "1" -> v <> lit "1.0" -> parse_model f64_parse t = Err (EInvalidVersionNumber (Some v))).
Proof.
  intros f H. split.
  - intros s a b O A B. inversion A as [docs ts n x y X]; subst. inversion B as [? ? ? ? z Z]; subst. destruct O as (_ & S & BO).
    apply (body_read_ok f _ _ _ S BO) in X, Z. congruence.
  - intros d t v O L V A B. rewrite (raw_laid f H d t L), (parse_raw f d O), (proj1 (proj2 (raw_asked f d)) v V A B). reflexivity.
Qed.
Print Assumptions C68_one_meaning.

(* ---------------------------------------------------------------- examples *)
Definition holding (l : list raw_statement) : raw_document := RawDocument [] [] (RawSection (lit "example.weather") [] l).
Definition stray (n : string) : idl_member := Member [] [] (lit n) (Bare (lit "String")).
(** Each of these is refused: two members in a list; one that is not called member; a map without a value; an unknown
    field; [apply]. *)
Definition refusals : list raw_statement :=
  [ RShape [] [] (lit "A") (RList [stray "member"; stray "member"]);
    RShape [] [] (lit "A") (RSet [stray "element"]);
    RShape [] [] (lit "A") (RMap [stray "key"]);
    RShape [] [] (lit "A") (RMap [stray "key"; stray "value"; stray "other"]);
    RShape [lit "Doc"] [] (lit "A") (ROperation [(Plain (lit "inputs"), IRef (Bare (lit "B")))]);
    RShape [] [] (lit "A") (ROperation [(Plain (lit "errors"), IRef (Bare (lit "B")))]);
    RApply (Bare (lit "A")) (Trait (Bare (lit "required")) NoArguments) ].
(** These make it panic: a service without a version, or with a quoted one; a number for a name; a name that is none. *)
Definition alarms : list raw_body :=
  [ RService []; RService [(Quoted (lit "version"), IText (lit "1"))]; ROperation [(Plain (lit "input"), IInt 1)];
    RResource [(Plain (lit "identifiers"), IObject [(Plain (lit "id"), IText (lit "not a name"))])] ].
Ltac solve_raw :=
  lazymatch goal with
  | |- raw_statement_ok (RApply _ _) => split; [lazy beta iota delta [ref_ok]; first [solve_short|solve_absolute]|solve_idl_trait]
  | |- raw_statement_ok _ => split; [solve_heading|split; [solve_short|cbn [raw_body_ok]; first [solve_entries|repeat (apply Forall_cons; [unfold stray; solve_member|]); apply Forall_nil]]]
  end.
Lemma weather_dotted : dotted_name (lit "example.weather").
Proof. exists [lit "example"; lit "weather"]. split; [discriminate|split; [repeat (apply Forall_cons; [solve_short|]); apply Forall_nil|reflexivity]]. Qed.
Lemma holding_ok l : Forall raw_statement_ok l -> raw_document_ok (holding l).
Proof. intros F. split; [constructor|]. split; [constructor|]. split; [exact weather_dotted|]. split; [constructor|exact F]. Qed.
Example C68_ex_refused : Forall raw_statement_ok refusals
  /\ map (fun s => match @parse_model zero_parse zero_hasher (raw_document_text (holding [s])) with Err _ => true | _ => false end) refusals = map (fun _ => true) refusals.
Proof. split; [unfold refusals; repeat lazymatch goal with |- Forall raw_statement_ok (_ :: _) => apply Forall_cons; [solve_raw|] end; apply Forall_nil|vm_compute; reflexivity]. Qed.
Example C68_ex_panics : Forall (fun b => raw_statement_ok (RShape [] [] (lit "A") b)) alarms
  /\ map (fun b => @parse_model zero_parse zero_hasher (raw_document_text (holding [RShape [] [] (lit "A") b]))) alarms = map (fun _ => Panic) alarms
  /\ alarming zero_parse (RService []).
Proof.
  split; [unfold alarms; repeat lazymatch goal with |- Forall _ (_ :: _) => apply Forall_cons; [cbv beta; solve_raw|] end; apply Forall_nil|]. split; [vm_compute; repeat constructor|]. apply al_version. intros v E. discriminate E.
Qed.
(** Texts serve as names, and of two fields with the same name the later one stays. *)
Definition twice : list (idl_key * idl_node) :=
  [(Plain (lit "input"), IInt 1); (Plain (lit "errors"), IArray [IText (lit "example.weather#Bad")]); (Plain (lit "input"), IText (lit "Good"))].
Example C68_ex_accepted : forall H : Hasher, raw_document_ok (holding [RShape [] [] (lit "A") (ROperation twice)])
  /\ (statement_means zero_parse (RShape [] [] (lit "A") (ROperation twice))
       (SB (Local (lit "A")) [] (BOperation (OpB (Some (Local (lit "Good"))) None [Qualified (SID (lit "example.weather") (lit "Bad") None)]))))
  /\ meaningless zero_parse (RShape [] [] (lit "A") (ROperation [(Plain (lit "inputs"), IRef (Bare (lit "B")))])).
Proof.
  intros H. split; [apply holding_ok, Forall_cons; [unfold twice; solve_raw|apply Forall_nil]|]. split.
  - apply (sm_shape zero_parse [] [] (lit "A")). constructor. exists (Some (Local (lit "Good"))), None, [Qualified (SID (lit "example.weather") (lit "Bad") None)].
    split; [|split; [reflexivity|split; [|split; [|reflexivity]]]].
    + eexists. split; [reflexivity|]. split; [apply SelectorFacts.short_is_identifier; solve_short|reflexivity].
    + eexists. split; [reflexivity|]. constructor; [|constructor]. split; [apply P24_Queries.C57_text with (s := lit "example.weather#Bad"); vm_compute; reflexivity|reflexivity].
    + intros k v [E|[E|[]]]; injection E as <- <-; cbn; auto.
  - intros sb M. inversion M as [? ? ? ? y B]; subst. inversion B as [| | | | | | |? ? (i & u & es & _ & _ & _ & O & _)|]; subst.
    destruct (O _ _ (or_introl eq_refl)) as [E|[E|[E|[]]]]; discriminate E.
Qed.
