(** C72: models that are read, and models that are built, are well formed: hash maps hold no key twice, shapes are
    stored under their own ids, and no trait is applied by the id of a member. *)
From Coq Require Import Sorting.Permutation.
From Verif.Model Require Import Json JsonText Builder Assembler SmithyParse.
From Verif.Spec Require Import AssemblerSpec BuilderSpec ReaderSpec Witness.
From Verif.Proofs Require Import HashMapFacts RegistryFacts AssemblerFacts ReaderFacts.
From Verif.Props Require P09_Assembler P20_Cli.

(** ** The readers *)
(** Whatever the document says (keys given twice, traits of members, shapes given in pieces by [apply], ...). *)
Theorem C72_json_reader :
  forall (H : Hasher) (j : json) (m : model), Json.read_model j = Ok m -> model_whole m.
Proof. intros H j m E. exact (json_whole j m E). Qed.
Print Assumptions C72_json_reader.
Theorem C72_json_text_reader :
  forall (H : Hasher) (f64_parse : str -> option Z) (text : str) (m : model),
    read_json_model f64_parse text = Ok m -> model_whole m.
Proof.
  intros H f text m. unfold read_json_model. generalize (json_from_text f text). intros [j|] E; [exact (json_whole j m E)|discriminate].
Qed.
Print Assumptions C72_json_text_reader.
Theorem C72_idl_reader :
  forall (H : Hasher) (f64_parse : str -> Z) (text : str) (m : model), parse_model f64_parse text = Ok m -> model_whole m.
Proof. intros H f text m E. exact (idl_whole f text m E). Qed.
Print Assumptions C72_idl_reader.

(** ** The builder *)
(** What [build] makes after any calls on a new builder that put well-formed values into it and import shapes, not members. *)
Theorem C72_builder :
  forall (H : Hasher) (v : version) (ns : str) (b0 b : builder) (ops : list builder_op) (m : model),
    builder_new v ns = Ok b0 -> Forall op_good ops -> builder_run b0 ops = Ok b -> build b = Ok m -> model_whole m.
Proof. intros H v ns b0 b ops m N F R B. eapply built_whole; [|exact B]. eapply good_run; [exact F| |exact R]. eapply good_new, N. Qed.
Print Assumptions C72_builder.

(** [uses] takes the id of a member too, and then a trait can be resolved to it. *)
Definition op_values (o : builder_op) : Prop :=
  match o with
  | BoShape s => sb_good s
  | BoUses _ => True
  | BoApply _ t => tb_good t
  | BoMetadata _ v => value_ok v
  end.
Definition C72_any_import : Prop :=
  forall (H : Hasher) (v : version) (ns : str) (b0 b : builder) (ops : list builder_op) (m : model),
    builder_new v ns = Ok b0 -> Forall op_values ops -> builder_run b0 ops = Ok b -> build b = Ok m -> model_ok m.
Definition importing : list builder_op :=
  [BoUses "other.place#tag$part"; BoShape (SB (Local "Word") [TB (Local "tag") (Some (VBoolean true))] (BSimple SString))].
Theorem C72_refuted : ~ C72_any_import.
Proof.
  intros C. destruct (builder_new V10 "here") as [b0| |] eqn:N; try (vm_compute in N; discriminate).
  destruct (@builder_run zero_hasher b0 importing) as [b| |] eqn:R; try (vm_compute in N; injection N as <-; vm_compute in R; discriminate).
  destruct (@build zero_hasher b) as [m| |] eqn:B; try (vm_compute in N; injection N as <-; vm_compute in R; injection R as <-; vm_compute in B; discriminate).
  assert (F : Forall op_values importing).
  { apply Forall_cons; [exact I|]. apply Forall_cons; [|apply Forall_nil]. split; [|split; [apply Forall_nil|discriminate]].
    apply Forall_cons; [|apply Forall_nil]. apply vo_bool. }
  destruct (C zero_hasher V10 "here" b0 b importing m N F R B) as (_ & S & _).
  vm_compute in N. injection N as <-. vm_compute in R. injection R as <-. vm_compute in B. injection B as <-. cbn in S.
  rewrite Forall_forall in S.
  assert (Q : Forall (fun e : shape_id * shape => Forall (fun t => sid_member (fst t) = None) (ts_traits (snd e)))
                     [(SID "here" "Word" None, Shape (SID "here" "Word" None) [(SID "other.place" "tag" (Some (lit "part")), Some (VBoolean true))] (KSimple SString))]).
  { apply Forall_forall. intros e [<-|[]]. destruct (S _ (or_intror (or_introl eq_refl))) as [[_ T] _]. revert T. apply Forall_impl. intros t [M _]. exact M. }
  inversion Q as [|? ? Q1 _]; subst. inversion Q1 as [|? ? Q2 _]; subst. discriminate Q2.
Qed.
Print Assumptions C72_refuted.

(** ** Assembling *)
Section Both.
  Variable json_floats : str -> option Z.
  Variable idl_floats : str -> Z.
  Context {H : Hasher}.
  Definition readers : registry := reg_default (read_json_model json_floats) (parse_model idl_floats).
  Lemma readers_whole e ft c m : reg_get readers e = Some ft -> ft_reader ft c = Ok m -> model_whole m.
  Proof.
    intros G R.
    assert (E : ft_reader ft = read_json_model json_floats \/ ft_reader ft = parse_model idl_floats).
    { unfold readers, reg_default in G. change (reg_get (reg_run [RgRegister (ft_new "JSON AST" (read_json_model json_floats)) "json"; RgRegister (ft_new "Smithy IDL" (parse_model idl_floats)) "smithy"] reg_empty) e = Some ft) in G.
      apply get_history in G as (b0 & o & a0 & E & Rg & _).
      destruct b0 as [|o1 [|o2 b0]]; cbn in E.
      - injection E as <- _. destruct Rg as [<- _]. left. reflexivity.
      - injection E as _ <- _. destruct Rg as [<- _]. right. reflexivity.
      - injection E as _ _ E. destruct b0; discriminate. }
    destruct E as [E|E]; rewrite E in R; [eapply C72_json_text_reader|eapply C72_idl_reader]; exact R.
  Qed.
End Both.
Theorem C72_registry :
  forall (H : Hasher) (json_floats : str -> option Z) (idl_floats : str -> Z),
    readers_ok (reg_default (read_json_model json_floats) (parse_model idl_floats)).
Proof. intros H f g e ft c m G R. apply (readers_whole f g e ft c m G R). Qed.
Print Assumptions C72_registry.
(** C38 for the readers there are: its hypothesis on the readers is met, and the result is well formed throughout. *)
Theorem C72_assembled :
  forall (H : Hasher) (json_floats : str -> option Z) (idl_floats : str -> Z) (root : node) (paths : list path),
    let r := reg_default (read_json_model json_floats) (parse_model idl_floats) in
    node_ok root ->
    ((exists m, assemble r root paths = Ok m) <->
       exists ms, Forall2 (fun p m => reads r root p m) (expand_file_paths r root paths) ms
                  /\ ForallOrdPairs models_compatible ms)
    /\ (forall m, assemble r root paths = Ok m ->
          model_whole m
          /\ exists ms, Forall2 (fun p m => reads r root p m) (expand_file_paths r root paths) ms /\ combined_model ms m).
Proof.
  intros H f g root paths r N. destruct (P09_Assembler.C38_assembled_model H r root paths (C72_registry H f g) N) as [Iff S].
  split; [exact Iff|]. intros m E. split; [|destruct (S m E) as (ms & R & C & _); exists ms; auto].
  unfold assemble in E. destruct paths as [|p paths]; [injection E as <-; apply default_whole|].
  apply JsonFacts.rbind_ok in E as (ms & Q & E).
  assert (F : Forall model_whole ms).
  { clear E. apply collect_ok in Q. apply (P09_Assembler.read_all_reads r root (p :: paths) ms N) in Q. revert Q. generalize (expand_file_paths r root (p :: paths)).
    intros l Q. induction Q as [|q m0 l ms (c & e & ft & _ & _ & G & R) Q IH]; [apply Forall_nil|].
    apply Forall_cons; [exact (readers_whole f g e ft c m0 G R)|]. exact IH. }
  destruct F as [|m0 ms W F]; [injection E as <-; apply default_whole|]. exact (merge_all_whole ms m0 m W F E).
Qed.
Print Assumptions C72_assembled.
(** C51 for the tool as it is. *)
Theorem C72_tool :
  forall (H : Hasher) (json_floats : str -> option Z) (idl_floats : str -> Z) (path_order : list path -> list path) (root : node)
         (files : list path) (search : option (list path)) (m : model),
    let r := reg_default (read_json_model json_floats) (parse_model idl_floats) in
    (forall l, Permutation (path_order l) l) -> node_ok root ->
    Cli.assemble_model (read_json_model json_floats) (parse_model idl_floats) path_order root files search = Ok m ->
    model_whole m
    /\ exists qs ms,
        (forall q, In q qs <->
           (exists p, (In p files \/ exists dirs, search = Some dirs /\ In p dirs) /\ below p q) /\ model_file r root q)
        /\ Forall2 (fun q m => reads r root q m) qs ms /\ combined_model ms m.
Proof.
  intros H f g order root files search m r P N A. split.
  - unfold Cli.assemble_model in A. destruct (C72_assembled H f g root (order (Cli.pushed_paths files search)) N) as [_ S]. apply (S m A).
  - destruct (P20_Cli.C51_inputs (read_json_model f) (parse_model g) order (fun p => p) root P (C72_registry H f g) N files search m A) as (qs & ms & I & R & C & _).
    exists qs, ms. auto.
Qed.
Print Assumptions C72_tool.

(** Documents that say things twice are read; the JSON reader refuses a trait of a member. *)
Definition twice : str :=
  lit "{""smithy"":""1.0"",""metadata"":{""k"":1,""k"":[2]},""shapes"":{""a#S"":{""type"":""structure"",""members"":{""m"":{""target"":""a#T"",""traits"":{""a#t"":{""x"":1,""x"":2}}},""m"":{""target"":""a#U""}}},""a#S"":{""type"":""apply"",""traits"":{""a#t"":true}}}}".
Definition trait_of_member : str :=
  lit "{""smithy"":""1.0"",""shapes"":{""a#S"":{""type"":""string"",""traits"":{""a#t$m"":true}}}}".
Definition short_idl : str :=
  lit "metadata k = {a: 1, a: 2}
namespace a.b
use c.d#t
@t(x: 1, x: 2)
string S
".
Definition fewer (s : str) : result model :=
  match Peg.run SmithyGrammar.smithy_grammar 2000 false (Peg.PCall SmithyGrammar.I_idl) s with
  | Some (Some (pairs, _)) => x <- SelectorParse.next pairs ;; @parse_idl (fun _ => 0%Z) zero_hasher (fst x)
  | _ => Panic
  end.
Definition ids_and_traits (r : result model) : option (list (str * value) * list (shape_id * traits)) :=
  match r with Ok m => Some (m_metadata m, map (fun e => (fst e, ts_traits (snd e))) (m_shapes m)) | _ => None end.
Definition an_import : list builder_op :=
  [BoUses "other.place#tag"; BoShape (SB (Local "Word") [TB (Local "tag") (Some (VObject [(lit "x", VNone)]))] (BSimple SString));
   BoApply "Word" (TB (Local "tag") None)].
Example C72_ex :
  ids_and_traits (@read_json_model (fun _ => None) zero_hasher twice)
    = Some ([(lit "k", VArray [VNumber (NInteger 2)])], [(SID "a" "S" None, [(SID "a" "t" None, Some (VBoolean true))])])
  /\ ids_and_traits (@read_json_model (fun _ => None) zero_hasher trait_of_member) = None
  /\ ids_and_traits (fewer short_idl)
     = Some ([(lit "k", VObject [(lit "a", VNumber (NInteger 2))])],
             [(SID "c.d" "t" None, []);
              (SID "a.b" "S" None, [(SID "c.d" "t" None, Some (VObject [(lit "x", VNumber (NInteger 2))]))])])
  /\ Forall op_good an_import
  /\ exists b0 b m, builder_new V10 "here" = Ok b0 /\ @builder_run zero_hasher b0 an_import = Ok b /\ @build zero_hasher b = Ok m.
Proof.
  split; [vm_compute; reflexivity|]. split; [vm_compute; reflexivity|]. split; [vm_compute; reflexivity|]. split.
  - apply Forall_cons; [|apply Forall_cons; [|apply Forall_cons; [exact I|apply Forall_nil]]].
    + intros i E. vm_compute in E. injection E as <-. reflexivity.
    + split; [|split; [apply Forall_nil|discriminate]]. apply Forall_cons; [|apply Forall_nil]. apply vo_object; [solve_distinct|].
      apply Forall_cons; [apply vo_none|apply Forall_nil].
  - do 3 eexists. split; [vm_compute; reflexivity|]. split; [vm_compute; reflexivity|]. vm_compute. reflexivity.
Qed.
