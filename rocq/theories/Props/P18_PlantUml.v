(** C49: the PlantUML diagram of a model. *)
From Coq Require Import Permutation.
From Verif.Model Require Import PlantUml.
From Verif.Spec Require Import UmlSpec IdentitySpec ActionsSpec Witness.
From Verif.Proofs Require Import BaseFacts IdentityFacts HashMapFacts LinesFacts UmlFacts.
From Verif.Props Require Import P03_Actions.
From Verif.Spec Require GraphMLSpec.

(* ---------------------------------------------------------------- C49 *)
Lemma known_forall {H : Hasher} m :
  operations_known m <-> Forall (fun s => Forall (knows m) (operations_of (ts_body s))) (shapes m).
Proof.
  unfold operations_known, shapes, hm_values. rewrite Forall_map, Forall_forall. split.
  - intros K [k s] I. apply Forall_forall. intros id J. exact (K k s id I J).
  - intros F k s id I J. specialize (F _ I). cbn [snd] in F. rewrite Forall_forall in F. exact (F id J).
Qed.
Lemma order_nil {H : Hasher} m order : Permutation order (namespaces m) -> order = [] ->
  Forall (fun s => Forall (knows m) (operations_of (ts_body s))) (shapes m).
Proof.
  intros P ->. apply Permutation_nil in P. destruct (C17_namespaces H m) as (_ & B & _). rewrite P in B.
  unfold shapes, hm_values. rewrite Forall_map, Forall_forall. intros [k s] I. cbn [snd].
  destruct (ts_body s) eqn:E; try constructor; exfalso;
    (destruct (B s) as (ns & [] & _); [exists k; exact I|rewrite E; discriminate]).
Qed.

(** The writer fails only by a panic, and panics exactly when a service or a resource of the model names an
    operation that the model does not have, or that is not an operation there. *)
Theorem C49_outcome :
  forall (H : Hasher) (f64_str : Z -> str) (debug_str : str -> str) (expand_smithy_api : bool) (m : model) (ns_order : list str),
    Permutation ns_order (namespaces m) ->
    (operations_known m -> exists text, plantuml_write f64_str debug_str expand_smithy_api ns_order m = Ok text)
    /\ (~ operations_known m -> plantuml_write f64_str debug_str expand_smithy_api ns_order m = Panic).
Proof.
  intros H f d e m order P. pose proof (write_says f d e order m) as W. cbv zeta in W. rewrite known_forall.
  destruct W as [[[N|K] W]|[K W]].
  - split; [eauto|]. intros X. destruct (X (order_nil m order P N)).
  - split; [eauto|]. intros X. destruct (X K).
  - split; [|auto]. intros X. destruct K. right. exact X.
Qed.
Print Assumptions C49_outcome.

Lemma order_namespaces {H : Hasher} m order : Permutation order (namespaces m) -> tame m -> Forall is_namespace order.
Proof.
  intros P T. apply Forall_forall. intros ns I. apply (Permutation_in _ P) in I.
  destruct (C17_namespaces H m) as (A & _). destruct (A ns I) as (s & (k & S) & _ & <-).
  destruct (T k s S) as (((V & _) & _) & _). exact V.
Qed.

(** The text, read as a diagram, is exactly that of the specification: for each namespace a package, holding
    the class of every simple, service, resource, structure and union shape of the model with its traits,
    members and operations, its notes and its links. *)
Theorem C49_diagram :
  forall (H : Hasher) (f64_str : Z -> str) (debug_str : str -> str) (expand_smithy_api : bool) (m : model) (ns_order : list str) (text : str),
    Permutation ns_order (namespaces m) ->
    (forall b, one_line (f64_str b)) ->
    (forall s, one_line (debug_str s) /\ exists t, debug_str s = dquote :: t) ->
    tame m ->
    plantuml_write f64_str debug_str expand_smithy_api ns_order m = Ok text ->
    read_diagram text = Some (diagram f64_str debug_str expand_smithy_api ns_order m).
Proof.
  intros H f d e m order text P F D T W.
  destruct (write_says f d e order m) as [[_ E]|[_ E]]; rewrite E in W; [|discriminate W]. injection W as <-.
  apply diagram_read; auto. exact (order_namespaces m order P T).
Qed.
Print Assumptions C49_diagram.

(** The classes: for every namespace of the model, one for each of those shapes, in the order of the model's
    shapes (so, with one namespace, each once). *)
Definition has_class (s : shape) : bool :=
  match ts_body s with KSimple _ | KService _ | KResource _ | KStructure _ | KUnion _ => true | _ => false end.
Definition class_names (d : list item) : list str :=
  flat_map (fun i => match i with Class _ n _ _ => [n] | _ => [] end) d.
Lemma class_names_app a b : class_names (a ++ b) = class_names a ++ class_names b.
Proof. apply flat_map_app. Qed.
Lemma names_notes d id : forall docs n, class_names (notes d id n docs) = [].
Proof. induction docs as [|x docs IH]; intros n; [reflexivity|]. apply IH. Qed.
Lemma names_owns id rs : class_names (owns id rs) = [].
Proof. induction rs as [|r rs IH]; [reflexivity|exact IH]. Qed.
Lemma names_prose docs : class_names (flat_map prose docs) = [].
Proof.
  induction docs as [|x docs IH]; [reflexivity|]. cbn [flat_map]. rewrite class_names_app, IH, app_nil_r. unfold prose.
  induction (split_on newline x) as [|l ls IHl]; [reflexivity|]. cbn [flat_map]. rewrite class_names_app, IHl. destruct (unindent l); reflexivity.
Qed.
Lemma names_shape {H : Hasher} f d e m s : class_names (shape_diagram f d e m s) = if has_class s then [id_text (ts_id s)] else [].
Proof.
  unfold shape_diagram, has_class. destruct (ts_body s); try reflexivity.
  - cbn [class_names flat_map]. fold (class_names (flat_map prose (documentation (ts_traits s)))). change (flat_map _ ?x) with (class_names x).
    rewrite class_names_app, names_prose. destruct e; reflexivity.
  - cbn [class_names flat_map]. change (flat_map _ ?x) with (class_names x). rewrite names_notes. unfold class_of. destruct (has_trait trait_api (ts_traits s)); reflexivity.
  - cbn [class_names flat_map]. change (flat_map _ ?x) with (class_names x). rewrite names_notes. unfold class_of. destruct (has_trait trait_api (ts_traits s)); reflexivity.
  - cbn [class_names flat_map]. change (flat_map _ ?x) with (class_names x). rewrite class_names_app, names_notes, names_owns. reflexivity.
  - cbn [class_names flat_map]. change (flat_map _ ?x) with (class_names x). rewrite class_names_app, names_notes, names_owns. reflexivity.
Qed.
Theorem C49_classes :
  forall (H : Hasher) (f64_str : Z -> str) (debug_str : str -> str) (m : model) (ns_order : list str) (text : str),
    Permutation ns_order (namespaces m) ->
    (forall b, one_line (f64_str b)) ->
    (forall s, one_line (debug_str s) /\ exists t, debug_str s = dquote :: t) ->
    tame m ->
    plantuml_write f64_str debug_str false ns_order m = Ok text ->
    exists d, read_diagram text = Some d
      /\ class_names d = concat (repeat (map (fun e => id_text (ts_id (snd e))) (filter (fun e => has_class (snd e)) (m_shapes m)))
                                        (length (namespaces m))).
Proof.
  intros H f d m order text P F D T W. eexists. split; [eapply C49_diagram; eassumption|].
  unfold diagram. rewrite !class_names_app. cbn [class_names flat_map app]. rewrite app_nil_r.
  rewrite <- (Permutation_length P). clear. change (flat_map _ (flat_map ?f ?l)) with (class_names (flat_map f l)).
  induction order as [|ns order IH]; [reflexivity|]. cbn [flat_map length repeat concat]. rewrite class_names_app, IH. f_equal.
  unfold package_diagram. cbn [class_names flat_map app]. change (flat_map _ (?a ++ ?b)) with (class_names (a ++ b)).
  rewrite class_names_app. cbn [class_names flat_map app]. rewrite app_nil_r. change (flat_map _ (flat_map ?f ?l)) with (class_names (flat_map f l)).
  clear IH. induction (m_shapes m) as [|[k s] l IHl]; [reflexivity|]. cbn [flat_map filter snd]. rewrite class_names_app, IHl, names_shape.
  destruct (has_class s); reflexivity.
Qed.
Print Assumptions C49_classes.

(** Whatever order the set of namespaces is iterated in, the same items are drawn. *)
Theorem C49_order :
  forall (H : Hasher) (f64_str : Z -> str) (debug_str : str -> str) (expand_smithy_api : bool) (m : model) (order order' : list str) (text text' : str),
    Permutation order (namespaces m) -> Permutation order' (namespaces m) ->
    (forall b, one_line (f64_str b)) ->
    (forall s, one_line (debug_str s) /\ exists t, debug_str s = dquote :: t) ->
    tame m ->
    plantuml_write f64_str debug_str expand_smithy_api order m = Ok text ->
    plantuml_write f64_str debug_str expand_smithy_api order' m = Ok text' ->
    exists d d', read_diagram text = Some d /\ read_diagram text' = Some d' /\ Permutation d d'.
Proof.
  intros H f d e m o o' t t' P P' F D T W W'. do 2 eexists. split; [exact (C49_diagram _ f d e m o t P F D T W)|].
  split; [exact (C49_diagram _ f d e m o' t' P' F D T W')|].
  unfold diagram. apply Permutation_app; [reflexivity|]. apply Permutation_app; [reflexivity|]. apply Permutation_app; [|reflexivity].
  apply Permutation_flat_map. rewrite P, P'. reflexivity.
Qed.
Print Assumptions C49_order.

(** ** The hypotheses are met *)
Definition no_float (b : Z) : str := lit "0".
Definition quote (s : str) : str := dquote :: flat_map (fun c => if Ascii.eqb c newline then lit "\n" else [c]) s ++ [dquote].
Lemma no_float_ok : forall b, one_line (no_float b).
Proof. intros b. apply one_lit. reflexivity. Qed.
Lemma quote_ok : forall s, one_line (quote s) /\ exists t, quote s = dquote :: t.
Proof.
  intros s. split; [|eexists; reflexivity]. unfold quote. intros [X|X]; [discriminate X|]. apply in_app_iff in X as [X|[X|[]]]; [|discriminate X].
  apply in_flat_map in X as (c & _ & X). destruct (Ascii.eqb c newline) eqn:E.
  - destruct X as [X|[X|[]]]; discriminate X.
  - destruct X as [X|[]]. subst c. rewrite Ascii.eqb_refl in E. discriminate.
Qed.
Ltac solve_tame d :=
  intros k s HI; unfold d in HI; cbn [m_shapes map ts_id] in HI; solve_in; autounfold with witness in *; (split; [split; [apply valid_idb_spec; reflexivity|split; [|split]]|split; [|split]]);
  cbn [ts_traits ts_body ts_id GraphMLSpec.targets] in *; try discriminate;
  intros; repeat match goal with
    | h : In _ (_ :: _) |- _ => destruct h as [h|h]
    | h : In _ [] |- _ => destruct h
    | h : In _ (map _ _) |- _ => cbn [map] in h
    | h : (_, _) = (_, _) |- _ => injection h; clear h; intros; subst
    | h : KResource _ = KResource _ |- _ => injection h; clear h; intros; subst
    | h : KService _ = KService _ |- _ => injection h; clear h; intros; subst
    | h : KSimple _ = KSimple _ |- _ => injection h; clear h; intros; subst
    | h : _ = _ :> shape_kind |- _ => discriminate h
    | h : In _ _ |- _ => vm_compute in h
    | h : _ \/ _ |- _ => destruct h as [h|h]
    | h : False |- _ => destruct h
    | h : VString _ = VString _ |- _ => injection h; clear h; intros; subst
    | h : Some _ = None |- _ => discriminate h
    end;
  repeat match goal with
    | |- _ /\ _ => split
    | |- valid_id _ => apply valid_idb_spec; vm_compute; reflexivity
    | |- is_identifier _ => apply ident_is_valid_spec; vm_compute; reflexivity
    | |- one_line _ => first [congruence | let X := fresh in intros X; vm_compute in X; intuition discriminate]
    end.
Example C49_ex_tame : tame motd.
Proof. solve_tame motd. Qed.
Definition motd_text : str := match @plantuml_write byte_hasher no_float quote true [ex_ns] motd with Ok t => t | _ => [] end.
Example C49_ex :
  Permutation [ex_ns] (@namespaces byte_hasher motd) /\ @operations_known byte_hasher motd
  /\ @plantuml_write byte_hasher no_float quote true [ex_ns] motd = Ok motd_text
  /\ option_map (fun d => skipn 22 d) (read_diagram motd_text)
     = Some [ Class (lit "class") (lit "example.motd#BadDateValue") (Some (lit "<<error>>"))
                [lit "@smithy.api#deprecated"; lit ".."; lit "errorMessage: smithy.api#String"];
              Class (lit "class") (lit "example.motd#Message") (Some (lit "<<resource>>"))
                [lit "date: example.motd#Date"; lit "create(in: example.motd#GetMessageInput): example.motd#GetMessageOutput"];
              Class (lit "class") (lit "example.motd#MessageOfTheDay") (Some (lit "<<service>>"))
                [lit "version: string = ""2020-06-21"""];
              Note false (lit "example.motd#MessageOfTheDay_note_0") (lit """Provides a message""");
              Link (lit "example.motd#MessageOfTheDay") (lit "..") (lit "example.motd#MessageOfTheDay_note_0");
              Link (lit "example.motd#MessageOfTheDay") (lit "*--") (lit "example.motd#Message");
              PackageEnd;
              Link (lit "example.motd") (lit "..>") (lit "smithy.api");
              Other (lit "@enduml") ].
Proof.
  split; [vm_compute; reflexivity|]. split; [|split; vm_compute; reflexivity].
  apply known_forall. unfold shapes, hm_values. rewrite Forall_map. apply Forall_forall. intros [k s] I. unfold motd in I. cbn [m_shapes map ts_id] in I.
  solve_in; cbn [snd ts_body operations_of motd_service motd_resource sv_operations]; try constructor; try constructor.
  do 3 eexists. vm_compute. reflexivity.
Qed.
Example C49_panic_ex : @plantuml_write byte_hasher no_float quote true [ex_ns] (@remove_shape byte_hasher motd (ex_id "GetMessage")) = Panic.
Proof. vm_compute. reflexivity. Qed.

(** "Each class is drawn once, in the package of its namespace": every package holds all of them. *)
Definition two_spaces : model :=
  Model V10 [] (map (fun s => (ts_id s, s))
    [Shape (SID "alpha" "A" None) [] (KStructure []); Shape (SID "beta" "B" None) [] (KStructure [])]).
Theorem C49_own_package_refuted :
  exists (m : model) (order : list str) (text : str),
    tame m /\ Permutation order (@namespaces byte_hasher m)
    /\ @plantuml_write byte_hasher no_float quote false order m = Ok text
    /\ read_diagram text
       = Some [ Other (lit "@startuml"); Other (lit "hide empty members");
                Package (lit "alpha"); Class (lit "class") (lit "alpha#A") None []; Class (lit "class") (lit "beta#B") None []; PackageEnd;
                Package (lit "beta"); Class (lit "class") (lit "alpha#A") None []; Class (lit "class") (lit "beta#B") None []; PackageEnd;
                Other (lit "@enduml") ].
Proof.
  exists two_spaces, [lit "alpha"; lit "beta"]. eexists. split; [solve_tame two_spaces|]. split; [|split; [vm_compute; reflexivity|vm_compute; reflexivity]].
  vm_compute. first [reflexivity | apply perm_swap].
Qed.
Print Assumptions C49_own_package_refuted.

(** "The operations of a resource's lifecycle are told apart": whichever one it is, it is called create. *)
Definition lifecycle_of (n : nat) (op : shape_id) : resource :=
  let at_ k := if Nat.eqb n k then Some op else None in
  Resource [] (at_ 0) (at_ 1) (at_ 2) (at_ 3) (at_ 4) (at_ 5) [] [] [].
Definition resource_model (n : nat) : model :=
  Model V10 [] (map (fun s => (ts_id s, s))
    [Shape (ex_id "Op") [] (KOperation (Operation None None [])); Shape (ex_id "R") [] (KResource (lifecycle_of n (ex_id "Op")))]).
Theorem C49_lifecycle_refuted :
  forall n, n < 6 -> exists text,
    @plantuml_write byte_hasher no_float quote false [ex_ns] (resource_model n) = Ok text
    /\ option_map (filter (fun i => match i with Class _ _ _ _ => true | _ => false end)) (read_diagram text)
       = Some [Class (lit "class") (lit "example.motd#R") (Some (lit "<<resource>>")) [lit "create(in: )"]].
Proof.
  intros n L. destruct n as [|[|[|[|[|[|n]]]]]]; try (eexists; split; [vm_compute; reflexivity|vm_compute; reflexivity]). lia.
Qed.
Print Assumptions C49_lifecycle_refuted.

(** "Documentation only adds prose": the documentation of a simple shape is written as it is, and can close
    the package, or draw anything. *)
Definition documented (d : str) : model :=
  Model V10 [] [(ex_id "S", Shape (ex_id "S") [(api_id "documentation", Some (VString d))] (KSimple SString))].
Theorem C49_documentation_refuted :
  exists text,
    @plantuml_write byte_hasher no_float quote false [ex_ns] (documented (lit "}" ++ newline :: lit "class Fake { }" ++ newline :: lit "a --> b")) = Ok text
    /\ read_diagram text
       = Some [ Other (lit "@startuml"); Other (lit "hide empty members"); Package (lit "example.motd");
                Class (lit "class") (lit "example.motd#S") (Some (lit "<<dataType>>")) []; PackageEnd; Other (lit "class Fake { }");
                Link (lit "a") (lit "-->") (lit "b"); PackageEnd; Other (lit "@enduml") ].
Proof. eexists. split; [vm_compute; reflexivity|vm_compute; reflexivity]. Qed.
Print Assumptions C49_documentation_refuted.
