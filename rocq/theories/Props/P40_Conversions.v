(** C75: however often a model is converted from one representation to the other, it stays the same. *)
From Coq Require Import Sorting.Permutation.
From Verif.Model Require Import Json JsonText SmithyParse SmithyWrite Assembler Cli.
From Verif.Spec Require Import ProjectSpec ReorderSpec Witness.
From Verif.Proofs Require Import BaseFacts HashMapFacts JsonFacts JsonTextModel JsonTextValues JsonTextWrite ReorderFacts ReorderEquiv AssemblerFacts ReaderFacts.
From Verif.Proofs Require EqualityFacts IdentityFacts JsonCanonFacts SelectorFacts.
From Verif.Props Require P09_Assembler P12_Smithy P20_Cli P27_SmithyStable P36_JsonText.

(** One run of the tool on one file. *)
Record run := Run { r_root : node; r_file : path; r_format : file_format; r_namespace : option str }.
(** The file that is read holds [text] and has the extension of the representation [f]. *)
Definition file_of (f : file_format) (r : run) (text : str) : Prop :=
  node_at (r_root r) (r_file r) = Some (NFile text)
  /\ exists e, has_extension (r_file r) e /\ same_name e (match f with FJson => lit "json" | FSmithy => lit "smithy" | FUml => lit "uml" end).
(** JSON, with whatever namespace, or the IDL of the namespace [ns]; of those that are used. *)
Definition keeps (uses : file_format -> Prop) (ns : str) (f : file_format) (namespace : option str) : Prop :=
  uses f /\ (f = FJson \/ f = FSmithy /\ namespace = Some ns).

Section Conversions.
  Variable json_floats : str -> option Z.
  Variable idl_floats : str -> Z.
  Variables (json_float_text idl_float_text : Z -> str) (debug_str : str -> str).
  (** What the tool is given besides: none of it matters for [convert]. *)
  Variables (render : Document.document -> str) (camel mixed snake : str -> str) (safe_label : str -> str -> str).
  Variables (yellow bright_red bold underline dimmed : str -> str) (has_source : error -> bool).
  Variables (path_order : list path -> list path) (ns_order : list str -> list str).
  Context {H : Hasher}.
  Notation json_reader := (read_json_model json_floats).
  Notation smithy_reader := (parse_model idl_floats).
  Notation registry := (reg_default json_reader smithy_reader).
  Notation tool := (main json_reader smithy_reader (json_text json_float_text true) render idl_float_text debug_str camel mixed snake safe_label
                         yellow bright_red bold underline dimmed has_source path_order ns_order).
  (** The model can be written as JSON and in the IDL of [ns], as far as they are used, and neither leaves anything of it out. *)
  Definition kept (uses : file_format -> Prop) (ns : str) (m : model) : Prop :=
    (uses FJson -> JsonSpec.model_writable m /\ model_printable json_floats json_float_text m /\ JsonSpec.json_faithful m)
    /\ (uses FSmithy -> SmithySpec.model_writable idl_float_text debug_str idl_floats ns m /\ SmithySpec.all_kept ns m).

  (** [text], of the representation [f], was printed by the last of some runs; each reads what the one before printed. *)
  Inductive printed_after (text0 : str) (f0 : file_format) : list run -> str -> file_format -> Prop :=
  | no_run : printed_after text0 f0 [] text0 f0
  | one_run rs t f r text :
      printed_after text0 f0 rs t f -> file_of f r t ->
      tool (r_root r) (Convert [r_file r] None (r_format r) (r_namespace r) None) = Outcome text Exit0 ->
      printed_after text0 f0 (rs ++ [r]) text (r_format r).

  (** A text holds the model [m], up to the order in which its maps are iterated. *)
  Definition text_holds (f : file_format) (text : str) (m : model) : Prop :=
    exists x, match f with FJson => json_reader text | FSmithy => smithy_reader text | FUml => Panic end = Ok x /\ reorder_model m x.

  Lemma json_again m x : JsonSpec.model_writable m -> model_printable json_floats json_float_text m -> JsonSpec.json_faithful m -> reorder_model m x ->
    exists j, Json.model_to_json x = Ok j /\ text_holds FJson (json_text json_float_text true j) m.
  Proof.
    intros W P F R. destruct (model_round m W) as (j & m' & J & Q & O). rewrite (json_faithful_image m F) in O.
    exists j. split; [exact (JsonCanonFacts.model_canon m x W R j J)|]. exists m'. split; [|exact O].
    unfold read_json_model. rewrite (proj2 (document_exact json_floats _ j)); [exact Q|]. apply text_says. eapply model_written; eassumption.
  Qed.
  Lemma idl_again ns m x : SmithySpec.model_writable idl_float_text debug_str idl_floats ns m -> SmithySpec.all_kept ns m -> reorder_model m x ->
    text_holds FSmithy (write_smithy idl_float_text debug_str ns x) m.
  Proof.
    intros W K R. destruct (P27_SmithyStable.C61_order_independent idl_float_text debug_str idl_floats ns m x W R) as (r1 & r2 & E1 & E2 & O).
    destruct (P12_Smithy.C40_identity idl_float_text debug_str idl_floats ns m W K) as (y & E & V & M & S). rewrite E in E1. injection E1 as ->.
    exists r2. split; [exact E2|]. apply (reorder_model_trans m r1 r2); [|exact O].
    split; [symmetry; exact V|]. rewrite M. split; [apply reordered_refl; constructor|].
    exists (m_shapes r1). split; [symmetry; exact S|]. generalize (m_shapes r1). induction l; constructor; [split; [reflexivity|apply reorder_shape_refl]|assumption].
  Qed.
  Lemma valid_namespace ns m : SmithySpec.model_writable idl_float_text debug_str idl_floats ns m -> ns_from_str ns = Ok ns.
  Proof.
    intros ((ids & NE & F & E) & _). unfold ns_from_str. replace (ns_is_valid ns) with true; [reflexivity|]. symmetry.
    apply IdentityFacts.ns_is_valid_spec. exists ids. split; [exact NE|]. split; [|exact E]. exact (Forall_impl _ SelectorFacts.short_is_identifier F).
  Qed.

  (** One conversion of whatever the tool makes of its files. *)
  Lemma converts uses ns m root files search x f namespace :
    kept uses ns m -> assemble_model json_reader smithy_reader path_order root files search = Ok x -> reorder_model m x -> keeps uses ns f namespace ->
    exists text, tool root (Convert files None f namespace search) = Outcome text Exit0 /\ text_holds f text m.
  Proof.
    intros [KJ KS] A R [U [-> | [-> ->]]]; cbn [main]; unfold convert_file_format; rewrite A; cbn [rbind write_model open_sink].
    - destruct (KJ U) as (JW & JP & JF). destruct (json_again m x JW JP JF R) as (j & -> & T). exists (json_text json_float_text true j). split; [reflexivity|exact T].
    - destruct (KS U) as [SW SK]. rewrite (valid_namespace ns m SW). exists (write_smithy idl_float_text debug_str ns x). split; [reflexivity|]. exact (idl_again ns m x SW SK R).
  Qed.
  (** What the tool makes of a file that holds [m]. *)
  Lemma file_makes m f r text : (forall l, Permutation (path_order l) l) -> file_of f r text -> text_holds f text m ->
    exists x, assemble registry (r_root r) [r_file r] = Ok x /\ reorder_model m x
              /\ assemble_model json_reader smithy_reader path_order (r_root r) [r_file r] None = Ok x.
  Proof.
    intros PO (N & e & X & E) (x & R & O). exists x. apply path_extension_spec in X. unfold same_name in E.
    assert (A : assemble registry (r_root r) [r_file r] = Ok x).
    { destruct f; [| |discriminate R].
      - eapply P20_Cli.one_file; [exact N|exact X|left; split; [exact E|reflexivity]|exact R].
      - eapply P20_Cli.one_file; [exact N|exact X|right; split; [exact E|reflexivity]|exact R]. }
    split; [exact A|]. split; [exact O|]. unfold assemble_model. cbn [pushed_paths fold_left].
    replace (path_order _) with [r_file r]; [exact A|]. symmetry. apply Permutation_length_1_inv. symmetry. apply PO.
  Qed.

  Lemma clean_traits ts : traits_ok ts -> ~ traits_nan ts -> traits_nan_free ts.
  Proof.
    intros _ N. apply Forall_forall. intros [t v] I. cbn [snd]. destruct v as [v|]; [|exact Logic.I]. apply EqualityFacts.nan_free_spec.
    intros X. apply N. exists t, v. split; assumption.
  Qed.
  Lemma clean_model m : model_whole m -> ~ model_nan m -> model_clean m.
  Proof.
    intros [(K & _ & Mo) S] N. split; [exact K|]. split; apply Forall_forall.
    - intros [k s] I. rewrite Forall_forall in S. destruct (S _ I) as (So & _ & Mb). cbn [snd] in *. split; [exact So|]. split.
      + apply clean_traits; [apply So|]. intros X. apply N. right. exists k, s. split; [exact I|left; exact X].
      + apply Forall_forall. intros b Ib. rewrite Forall_forall in Mb. split; [exact (Mb b Ib)|]. apply clean_traits; [exact (Mb b Ib)|].
        intros X. apply N. right. exists k, s. split; [exact I|]. right. exists b. split; [exact Ib|exact X].
    - intros [k v] I. rewrite Forall_forall in Mo. split; [exact (Mo _ I)|]. apply EqualityFacts.nan_free_spec. intros X. apply N. left. exists k, v. split; assumption.
  Qed.

  (** The first run may read any number of files, as long as they make [m] together (C73). *)
  Theorem C75_conversions :
    forall (uses : file_format -> Prop) (ns : str) (m : model) (root0 : node) (files : list path) (search : option (list path)) (x : model) (f0 : file_format) (namespace : option str),
      (forall l, Permutation (path_order l) l) ->
      kept uses ns m -> model_whole m -> ~ model_nan m ->
      assemble_model json_reader smithy_reader path_order root0 files search = Ok x -> reorder_model m x -> keeps uses ns f0 namespace ->
      exists text0,
        tool root0 (Convert files None f0 namespace search) = Outcome text0 Exit0
        /\ forall (rs : list run) (text : str) (f : file_format),
             printed_after text0 f0 rs text f -> Forall (fun r => keeps uses ns (r_format r) (r_namespace r)) rs ->
             forall r, file_of f r text ->
               (* the model is still there *)
               (exists m', assemble registry (r_root r) [r_file r] = Ok m' /\ model_eqb m m' = true)
               (* and can be converted once more *)
               /\ (keeps uses ns (r_format r) (r_namespace r) ->
                   exists text', tool (r_root r) (Convert [r_file r] None (r_format r) (r_namespace r) None) = Outcome text' Exit0
                                 /\ printed_after text0 f0 (rs ++ [r]) text' (r_format r)).
  Proof.
    intros uses ns m root0 files search x f0 namespace PO K Wh Nan A R W. destruct (converts uses ns m root0 files search x f0 namespace K A R W) as (text0 & T & Hd).
    exists text0. split; [exact T|]. intros rs text f P Fk.
    assert (Held : text_holds f text m).
    { clear - P Fk Hd K PO. induction P as [|rs t f r text P IH N C]; [exact Hd|]. apply Forall_app in Fk as [Fk Kr]. inversion Kr as [|? ? Kr' _]; subst.
      destruct (file_makes m f r t PO N (IH Fk)) as (y & _ & O & A). destruct (converts uses ns m _ _ _ y _ _ K A O Kr') as (text' & C' & Hd').
      rewrite C in C'. injection C' as <-. exact Hd'. }
    intros r N. destruct (file_makes m f r text PO N Held) as (y & A' & O & A2). split.
    - exists y. split; [exact A'|]. apply reorder_model_eqb; [|exact O]. exact (clean_model m Wh Nan).
    - intros Kr. destruct (converts uses ns m _ _ _ y _ _ K A2 O Kr) as (text' & C & _). exists text'. split; [exact C|]. econstructor; eassumption.
  Qed.
End Conversions.
Print Assumptions C75_conversions.

(** ** The IDL file of the project of C73, converted to JSON, back to the IDL, and read. *)
From Verif.Props Require P05_Json P38_Projects.
From Verif.Spec Require Import SmithySpec.
Import P12_Smithy P38_Projects.
#[local] Hint Unfold dates pair_shape : witness.
Definition both : file_format -> Prop := fun _ => True.
Ltac solve_kept_json m :=
  split; [split; [solve_model_ok m|]; split; cbn; autounfold with witness; P05_Json.solve_writable|]; split;
    [split; cbn; autounfold with witness; change deepest with 127; cbn [Nat.sub]; P36_JsonText.solve_printable|];
    unfold JsonSpec.json_faithful; cbn; repeat (apply Forall_cons || apply Forall_nil); cbn; (split; [|split; [intros; discriminate|]]); unfold JsonSpec.traits_valued;
      repeat (apply Forall_cons || apply Forall_nil); cbn; try discriminate.
Example C75_ex_kept : kept (H := zero_hasher) (fun _ => None) zero_parse no_float no_float quoted both ex_ns idl_part
  /\ @model_whole zero_hasher idl_part /\ ~ model_nan idl_part.
Proof.
  destruct C73_ex_whole as [[_ W] N]. split; [|split].
  - split; intros _; [solve_kept_json idl_part|exact idl_part_kept].
  - split; [solve_model_ok idl_part|]. inversion W as [|? ? _ W']. exact W'.
  - intros [(k & v & [] & _)|(k & s & I & X)]. apply N. right. exists k, s. split; [right; exact I|exact X].
Qed.
(** A model with metadata, which the IDL writer does not put where its reader finds it, is kept by JSON. *)
Example C75_ex_metadata : kept (H := zero_hasher) (fun _ => None) zero_parse no_float no_float quoted (fun f => f = FJson) ex_ns whole_project
  /\ @model_whole zero_hasher whole_project /\ ~ model_nan whole_project.
Proof.
  split; [|exact C73_ex_whole]. split; [intros _|discriminate]. solve_kept_json whole_project.
Qed.
Section Example.
  Variables (render : Document.document -> str) (camel mixed snake : str -> str) (safe_label : str -> str -> str).
  Variables (yellow bright_red bold underline dimmed : str -> str) (has_source : error -> bool).
  Notation tool := (@main zero_hasher (@read_json_model (fun _ => None) zero_hasher) (@parse_model zero_parse zero_hasher) (json_text no_float true) render
                          no_float quoted camel mixed snake safe_label yellow bright_red bold underline dimmed has_source (fun l => l) (fun l => l)).
  Definition in_json (text : str) : run := Run (NDir [(lit "a.json", NFile text)]) [lit "a.json"] FSmithy (Some ex_ns).
  Definition in_idl (text : str) : run := Run (NDir [(lit "b.smithy", NFile text)]) [lit "b.smithy"] FJson None.
  Example C75_ex : exists as_json as_idl m',
    tool project (Convert [[lit "src"; lit "dates.SMITHY"]] None FJson None None) = Outcome as_json Exit0
    /\ tool (r_root (in_json as_json)) (Convert [[lit "a.json"]] None FSmithy (Some ex_ns) None) = Outcome as_idl Exit0
    /\ @assemble zero_hasher (reg_default (@read_json_model (fun _ => None) zero_hasher) (@parse_model zero_parse zero_hasher))
         (r_root (in_idl as_idl)) [[lit "b.smithy"]] = Ok m'
    /\ @model_eqb zero_hasher idl_part m' = true.
  Proof.
    assert (PO : forall l : list path, Permutation ((fun l => l) l) l) by reflexivity.
    assert (T : @text_holds (fun _ => None) zero_parse zero_hasher FSmithy (write_smithy no_float quoted ex_ns idl_part) idl_part).
    { apply (@idl_again (fun _ => None) zero_parse no_float quoted zero_hasher ex_ns idl_part idl_part); [apply idl_part_kept..|apply reorder_model_refl]. }
    assert (F : file_of FSmithy (Run project [lit "src"; lit "dates.SMITHY"] FJson None) (write_smithy no_float quoted ex_ns idl_part)).
    { split; [reflexivity|]. exists (lit "SMITHY"). split; [|reflexivity]. exists [lit "src"], (lit "dates"). split; [reflexivity|]. split; [discriminate|]. vm_compute. intuition discriminate. }
    destruct (@file_makes (fun _ => None) zero_parse (fun l => l) zero_hasher idl_part _ _ _ PO F T) as (x & _ & R & A).
    destruct (@C75_conversions (fun _ => None) zero_parse no_float no_float quoted render camel mixed snake safe_label yellow bright_red bold underline dimmed has_source
                (fun l => l) (fun l => l) zero_hasher both ex_ns idl_part _ _ _ x FJson None PO (proj1 C75_ex_kept) (proj1 (proj2 C75_ex_kept)) (proj2 (proj2 C75_ex_kept)) A R (conj I (or_introl eq_refl))) as (t0 & E0 & C).
    assert (F1 : file_of FJson (in_json t0) t0).
    { split; [reflexivity|]. exists (lit "json"). split; [|reflexivity]. exists [], (lit "a"). split; [reflexivity|]. split; [discriminate|]. vm_compute. intuition discriminate. }
    destruct (proj2 (C [] t0 FJson (no_run _ _ _ _ _ _ _ _ _ _ _ _ _ _ _ _ _ _ _ _) (Forall_nil _) (in_json t0) F1)) as (t1 & E1 & P1); [split; [exact I|right; split; reflexivity]|].
    assert (F2 : file_of FSmithy (in_idl t1) t1).
    { split; [reflexivity|]. exists (lit "smithy"). split; [|reflexivity]. exists [], (lit "b"). split; [reflexivity|]. split; [discriminate|]. vm_compute. intuition discriminate. }
    assert (Fk : Forall (fun r => keeps both ex_ns (r_format r) (r_namespace r)) ([] ++ [in_json t0])) by (constructor; [split; [exact I|right; split; reflexivity]|constructor]).
    destruct (proj1 (C _ t1 _ P1 Fk (in_idl t1) F2)) as (m' & A' & Q).
    exists t0, t1, m'. split; [exact E0|]. split; [exact E1|]. split; [exact A'|exact Q].
  Qed.
End Example.
