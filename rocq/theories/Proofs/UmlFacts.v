(** Facts about the PlantUML writer and about reading its diagrams. *)
From Verif.Model Require Import PlantUml.
From Verif.Spec Require Import UmlSpec IdentitySpec.
From Verif.Proofs Require Import BaseFacts IdentityFacts HashMapFacts.
From Verif.Spec Require GraphMLSpec.
From Verif.Proofs Require GraphMLFacts.

Arguments nat_to_str : simpl never.
Arguments lit : simpl never.

Notation id_ch := GraphMLFacts.id_ch.
Notation ids s := (forallb id_ch s = true).

(* ------------------------------------------------------------ the text of the writer, without panics *)
Section Pure.
  Context `{Hasher}.
  Variables (f64_str : Z -> str) (debug_str : str -> str) (expand : bool).

  Definition knows (m : model) (id : shape_id) : Prop :=
    exists id' ts o, model_shape m id = Some (Shape id' ts (KOperation o)).
  Lemma knows_dec m id : knows m id \/ ~ knows m id.
  Proof.
    unfold knows. destruct (model_shape m id) as [[id' ts [| | | | | | | o| |]]|];
      try (right; intros (? & ? & ? & X); discriminate X). left. eauto.
  Qed.
  Lemma type_shown id m : type_string id m = shown_type m id.
  Proof.
    unfold type_string, shown_type. destruct (model_shape m id) as [[i ts b]|]; [|apply sid_display_text].
    cbn [ts_body]. destruct b; try apply sid_display_text; reflexivity.
  Qed.
  Definition pad : str := lit "        ".
  Definition op_lines (m : model) (label : option str) (l : list shape_id) : list str :=
    map (fun i => pad ++ method m label i) l.
  Definition says (ok : Prop) (r : result (list str)) (l : list str) : Prop := (ok /\ r = Ok l) \/ (~ ok /\ r = Panic).
  Lemma operation_says m id label : says (knows m id) (write_operation id m label) [pad ++ method m label id].
  Proof.
    unfold says, knows, write_operation, method. destruct (model_shape m id) as [[i ts b]|].
    - destruct b as [| | | | | | | o| |]; try (right; split; [intros (? & ? & ? & X); discriminate X|reflexivity]).
      left. split; [eauto|]. cbn [ts_body ts_id]. rewrite sid_display_text.
      destruct (op_input o), (op_output o); rewrite ?type_shown; reflexivity.
    - right; split; [intros (? & ? & ? & X); discriminate X|reflexivity].
  Qed.
  Lemma operations_say m label l : says (Forall (knows m) l) (write_operations l m label) (op_lines m label l).
  Proof.
    induction l as [|i l IH]; [left; split; [constructor|reflexivity]|]. cbn [write_operations op_lines map].
    destruct (operation_says m i label) as [[K E]|[K E]]; rewrite E; cbn [rbind].
    - destruct IH as [[L F]|[L F]]; rewrite F; cbn [rbind].
      + left. split; [constructor; assumption|reflexivity].
      + right. split; [|reflexivity]. intros X. inversion X; auto.
    - right. split; [|reflexivity]. intros X. inversion X; auto.
  Qed.
  Definition group_lines (m : model) (h : string) (l : list shape_id) : list str :=
    map (app pad) (methods m h l).
  Lemma group_says m h l : says (Forall (knows m) l) (write_group (lit h) l m) (group_lines m h l).
  Proof.
    unfold write_group, group_lines, methods. destruct l as [|i l]; [left; split; [constructor|reflexivity]|].
    destruct (operations_say m None (i :: l)) as [[K E]|[K E]]; rewrite E; cbn [rbind]; [left|right]; (split; [exact K|]).
    - unfold op_lines. cbn [map]. rewrite map_map. reflexivity.
    - reflexivity.
  Qed.
  Lemma lifecycle_says m o :
    says (Forall (knows m) (GraphMLSpec.maybe o)) (write_lifecycle o m) (op_lines m (Some (lit "create")) (GraphMLSpec.maybe o)).
  Proof.
    destruct o as [i|]; [|left; split; [constructor|reflexivity]]. cbn [write_lifecycle GraphMLSpec.maybe op_lines map].
    destruct (operation_says m i (Some (lit "create"))) as [[K E]|[K E]]; rewrite E; [left|right]; (split; [|reflexivity]).
    - constructor; [exact K|constructor].
    - intros X. inversion X; auto.
  Qed.

  (** The collected traits. *)
  Definition trait_pads (ts : traits) : list str :=
    map (fun t => lit "    @" ++ id_text (fst t) ++ trait_value f64_str (snd t)) (filter shown ts).
  Lemma collect_shown ts : collect_traits f64_str ts = (trait_pads ts, documentation ts).
  Proof.
    induction ts as [|[i v] ts IH]; [reflexivity|]. cbn [collect_traits]. rewrite IH. clear IH.
    change pu_error with error_api. change pu_documentation with documentation_api.
    unfold trait_pads, documentation. cbn [filter flat_map].
    assert (shown (i, v) = negb (sid_eqb i error_api) && negb (sid_eqb i documentation_api)) as S by reflexivity.
    rewrite S. cbn [fst snd]. destruct (sid_eqb i error_api); [reflexivity|].
    destruct (sid_eqb i documentation_api); cbn [negb andb].
    - destruct v as [[]|]; reflexivity.
    - cbn [map fst snd app]. f_equal. f_equal. unfold trait_line. rewrite sid_display_text.
      destruct v as [v|]; [|cbn [trait_value]; rewrite app_nil_r; reflexivity].
      destruct v as [| |n|b|s|]; cbn [trait_value]; rewrite ?app_nil_r; try reflexivity.
      + destruct n; reflexivity.
      + destruct b; reflexivity.
  Qed.

  Definition trait_part (ts : traits) : list str :=
    match trait_pads ts with [] => [] | l => [lit "    " ++ join [eol] l; pad ++ lit ".."] end.
  Lemma class_traits s : write_class_traits f64_str s = (trait_part (ts_traits s), documentation (ts_traits s)).
  Proof. unfold write_class_traits, trait_part. rewrite collect_shown. destruct (trait_pads (ts_traits s)); reflexivity. Qed.

  (** What is written for a shape whose operations are known. *)
  Definition tail_lines (s : shape) (links : list shape_id) : list str :=
    write_class_notes debug_str (ts_id s) 0 (documentation (ts_traits s)) ++ resource_links (ts_id s) links ++ [[]].
  Definition element_lines (m : model) (s : shape) : list str :=
    match ts_body s with
    | KSimple st => write_data_type f64_str expand s st
    | KService sv =>
        [lit "    class " ++ id_text (ts_id s) ++ lit " <<service>> {"]
        ++ (trait_part (ts_traits s) ++ [pad ++ lit "version: string = """ ++ sv_version sv ++ lit """"]
            ++ op_lines m None (sv_operations sv))
        ++ [lit "    }"] ++ tail_lines s (sv_resources sv)
    | KResource r =>
        [lit "    class " ++ id_text (ts_id s) ++ lit " <<resource>> {"]
        ++ (trait_part (ts_traits s)
            ++ map (fun e => pad ++ field (fst e) (id_text (snd e))) (rs_identifiers r)
            ++ op_lines m (Some (lit "create")) (lifecycle r)
            ++ group_lines m "operations" (rs_operations r)
            ++ group_lines m "collectionOperations" (rs_collection_operations r))
        ++ [lit "    }"] ++ tail_lines s (rs_resources r)
    | KStructure ms => write_class f64_str debug_str s false ms
    | KUnion ms => write_class f64_str debug_str s true ms
    | _ => []
    end.
  Lemma service_says m s sv :
    ts_body s = KService sv -> says (Forall (knows m) (sv_operations sv)) (write_service f64_str debug_str s sv m) (element_lines m s).
  Proof.
    intros B. unfold write_service, element_lines. rewrite B, class_traits.
    destruct (operations_say m None (sv_operations sv)) as [[K E]|[K E]]; rewrite E; cbn [rbind]; [left|right]; (split; [exact K|]); [|reflexivity].
    f_equal. unfold tail_lines. rewrite sid_display_text, <- !app_assoc. reflexivity.
  Qed.
  Lemma resource_says m s r :
    ts_body s = KResource r ->
    says (Forall (knows m) (operations_of (KResource r))) (write_resource f64_str debug_str s r m) (element_lines m s).
  Proof.
    intros B. unfold write_resource, element_lines, lifecycle, operations_of. rewrite B, class_traits.
    assert (forall ok1 ok2 : Prop, ~ ok1 -> (ok2 -> ok1) -> says ok2 Panic
      ([lit "    class " ++ id_text (ts_id s) ++ lit " <<resource>> {"]
        ++ (trait_part (ts_traits s)
            ++ map (fun e => pad ++ field (fst e) (id_text (snd e))) (rs_identifiers r)
            ++ op_lines m (Some (lit "create")) (lifecycle r)
            ++ group_lines m "operations" (rs_operations r)
            ++ group_lines m "collectionOperations" (rs_collection_operations r))
        ++ [lit "    }"] ++ tail_lines s (rs_resources r))) as PA.
    { intros ok1 ok2 N I. right. split; [auto|reflexivity]. }
    unfold lifecycle in *. cbn [flat_map] in *. rewrite app_nil_r in *.
    destruct (lifecycle_says m (rs_create r)) as [[K1 E]|[K E]]; rewrite E; cbn [rbind];
      [|apply (PA _ _ K); rewrite !Forall_app; tauto]; clear E.
    destruct (lifecycle_says m (rs_put r)) as [[K2 E]|[K E]]; rewrite E; cbn [rbind];
      [|apply (PA _ _ K); rewrite !Forall_app; tauto]; clear E.
    destruct (lifecycle_says m (rs_read r)) as [[K3 E]|[K E]]; rewrite E; cbn [rbind];
      [|apply (PA _ _ K); rewrite !Forall_app; tauto]; clear E.
    destruct (lifecycle_says m (rs_update r)) as [[K4 E]|[K E]]; rewrite E; cbn [rbind];
      [|apply (PA _ _ K); rewrite !Forall_app; tauto]; clear E.
    destruct (lifecycle_says m (rs_delete r)) as [[K5 E]|[K E]]; rewrite E; cbn [rbind];
      [|apply (PA _ _ K); rewrite !Forall_app; tauto]; clear E.
    destruct (lifecycle_says m (rs_list r)) as [[K6 E]|[K E]]; rewrite E; cbn [rbind];
      [|apply (PA _ _ K); rewrite !Forall_app; tauto]; clear E.
    destruct (group_says m "operations" (rs_operations r)) as [[K7 E]|[K E]]; rewrite E; cbn [rbind];
      [|apply (PA _ _ K); rewrite !Forall_app; tauto]; clear E.
    destruct (group_says m "collectionOperations" (rs_collection_operations r)) as [[K8 E]|[K E]]; rewrite E; cbn [rbind];
      [|apply (PA _ _ K); rewrite !Forall_app; tauto]; clear E.
    left. split; [rewrite !Forall_app; tauto|]. f_equal. unfold tail_lines, op_lines. rewrite sid_display_text, !map_app, <- !app_assoc.
    f_equal. f_equal. f_equal. apply map_ext. intros e. unfold field. rewrite sid_display_text. reflexivity.
  Qed.
  Lemma element_says m s :
    says (Forall (knows m) (operations_of (ts_body s))) (write_element f64_str debug_str expand s m) (element_lines m s).
  Proof.
    unfold write_element. destruct (ts_body s) eqn:B;
      try (left; split; [constructor|unfold element_lines; rewrite B; reflexivity]).
    - apply service_says; exact B.
    - apply resource_says; exact B.
  Qed.
  Lemma elements_say m l :
    says (Forall (fun s => Forall (knows m) (operations_of (ts_body s))) l)
      (write_elements f64_str debug_str expand l m) (flat_map (element_lines m) l).
  Proof.
    induction l as [|s l IH]; [left; split; [constructor|reflexivity]|]. cbn [write_elements flat_map].
    destruct (element_says m s) as [[K E]|[K E]]; rewrite E; cbn [rbind].
    - destruct IH as [[L F]|[L F]]; rewrite F; cbn [rbind].
      + left. split; [constructor; assumption|reflexivity].
      + right. split; [|reflexivity]. intros X. inversion X; auto.
    - right. split; [|reflexivity]. intros X. inversion X; auto.
  Qed.
  Definition package_lines (m : model) (ns : str) : list str :=
    [lit "package " ++ ns ++ lit " {"; []] ++ flat_map (element_lines m) (shapes m) ++ [lit "}"]
    ++ (if expand then [ns ++ lit " ..> smithy.api"] else []).
  Lemma packages_say m l :
    says (l = [] \/ Forall (fun s => Forall (knows m) (operations_of (ts_body s))) (shapes m))
      (write_packages f64_str debug_str expand l m) (flat_map (package_lines m) l).
  Proof.
    induction l as [|ns l IH]; [left; split; [left|]; reflexivity|]. cbn [write_packages flat_map]. unfold write_package.
    destruct (elements_say m (shapes m)) as [[K E]|[K E]]; rewrite E; cbn [rbind].
    - destruct IH as [[L F]|[L F]]; [|exfalso; apply L; right; exact K]. rewrite F. left. split; [right; exact K|reflexivity].
    - right. split; [|reflexivity]. intros [X|X]; [discriminate X|auto].
  Qed.
  Definition diagram_lines (ns_order : list str) (m : model) : list str :=
    [lit "@startuml"; []; lit "hide empty members"; []]
    ++ (if expand then write_smithy_model else [])
    ++ flat_map (package_lines m) ns_order
    ++ [[]; lit "@enduml"].
  Definition text_of (ls : list str) : str := concat (map (fun l => l ++ [eol]) ls).
  Lemma write_says ns_order m :
    let ok := ns_order = [] \/ Forall (fun s => Forall (knows m) (operations_of (ts_body s))) (shapes m) in
    (ok /\ plantuml_write f64_str debug_str expand ns_order m = Ok (text_of (diagram_lines ns_order m)))
    \/ (~ ok /\ plantuml_write f64_str debug_str expand ns_order m = Panic).
  Proof.
    cbv zeta. unfold plantuml_write, plantuml_lines.
    destruct (packages_say m ns_order) as [[K E]|[K E]]; rewrite E; [left|right]; split; auto.
  Qed.
End Pure.

(* ------------------------------------------------------------ reading *)
Lemma split_app_sep c a b : split_on c (a ++ c :: b) = split_on c a ++ split_on c b.
Proof.
  induction a as [|x a IH]; cbn [app split_on]; [rewrite Ascii.eqb_refl; reflexivity|].
  destruct (Ascii.eqb x c); [rewrite IH; reflexivity|]. rewrite IH.
  destruct (split_on c a) eqn:E; [apply split_on_nonempty in E; destruct E|]. reflexivity.
Qed.
Lemma split_text ls : split_on newline (text_of ls) = flat_map (split_on newline) ls ++ [[]].
Proof.
  unfold text_of. induction ls as [|l ls IH]; [reflexivity|]. cbn [map concat flat_map].
  rewrite <- !app_assoc. change ([eol] ++ ?x) with (newline :: x). rewrite split_app_sep, IH. reflexivity.
Qed.

Definition splits (ls : list str) : list str := flat_map (split_on newline) ls.
Definition chunk (ls : list str) (is : list item) : Prop :=
  forall rest, read Top (splits ls ++ rest) = option_map (app is) (read Top rest).
Lemma option_map_map {A B C} (f : B -> C) (g : A -> B) (o : option A) : option_map f (option_map g o) = option_map (fun x => f (g x)) o.
Proof. destruct o; reflexivity. Qed.
Lemma chunk_nil : chunk [] [].
Proof. intros rest. cbn. destruct (read Top rest); reflexivity. Qed.
Lemma chunk_app a b x y : chunk a x -> chunk b y -> chunk (a ++ b) (x ++ y).
Proof.
  intros A B rest. unfold splits. rewrite flat_map_app, <- app_assoc. rewrite (A _), (B _), option_map_map.
  destruct (read Top rest); cbn; [rewrite app_assoc|]; reflexivity.
Qed.
Lemma chunk_flat {A} (f : A -> list str) (g : A -> list item) l :
  (forall x, In x l -> chunk (f x) (g x)) -> chunk (flat_map f l) (flat_map g l).
Proof.
  induction l as [|x l IH]; intros F; [apply chunk_nil|]. cbn [flat_map]. apply chunk_app; [apply F; left; reflexivity|].
  apply IH. intros y Y. apply F. right. exact Y.
Qed.
Lemma chunk_map {A} (f : A -> str) (g : A -> item) l :
  (forall x, In x l -> chunk [f x] [g x]) -> chunk (map f l) (map g l).
Proof.
  induction l as [|x l IH]; intros F; [apply chunk_nil|]. cbn [map].
  apply (chunk_app [f x] (map f l) [g x] (map g l)); [apply F; left; reflexivity|]. apply IH. intros y Y. apply F. right. exact Y.
Qed.
Lemma splits_one l : one_line l -> splits [l] = [l].
Proof. intros O. unfold splits. cbn [flat_map]. rewrite (split_on_no_sep _ _ O). reflexivity. Qed.
Lemma chunk_line l i : one_line l -> unindent l <> [] -> read_line (unindent l) = inl i -> chunk [l] [i].
Proof.
  intros O N R rest. rewrite (splits_one _ O). cbn [app read]. rewrite R. destruct (unindent l); [congruence|]. reflexivity.
Qed.
Lemma chunk_blank : chunk [[]] [].
Proof. intros rest. cbn. destruct (read Top rest); reflexivity. Qed.

(** The lines within a class. *)
Definition body_of (ls body : list str) : Prop :=
  map unindent (splits ls) = body /\ Forall (fun l => is l "}" = false) body.
Lemma body_nil : body_of [] [].
Proof. split; [reflexivity|constructor]. Qed.
Lemma body_app a b x y : body_of a x -> body_of b y -> body_of (a ++ b) (x ++ y).
Proof.
  intros [A A'] [B B']. split; [|apply Forall_app; auto]. unfold splits in *. rewrite flat_map_app, map_app, A, B. reflexivity.
Qed.
Lemma body_line l t : one_line l -> unindent l = t -> is t "}" = false -> body_of [l] [t].
Proof. intros O U N. split; [rewrite (splits_one _ O); cbn; rewrite U; reflexivity|constructor; auto]. Qed.
Lemma body_map {A} (f g : A -> str) l :
  (forall x, In x l -> body_of [f x] [g x]) -> body_of (map f l) (map g l).
Proof.
  induction l as [|x l IH]; intros F; [apply body_nil|]. cbn [map].
  apply (body_app [f x] (map f l) [g x] (map g l)); [apply F; left; reflexivity|]. apply IH. intros y Y. apply F. right. exact Y.
Qed.
Lemma read_body k n mk ls : forall acc rest body,
  map unindent ls = body -> Forall (fun l => is l "}" = false) body ->
  read (InClass k n mk acc) (ls ++ rest) = read (InClass k n mk (rev body ++ acc)) rest.
Proof.
  induction ls as [|l ls IH]; intros acc rest body M F; [subst body; reflexivity|].
  cbn [map] in M. subst body. inversion F as [|? ? F1 F2]; subst. cbn [app read]. rewrite F1.
  rewrite (IH (unindent l :: acc) rest _ eq_refl F2). cbn [rev]. rewrite <- app_assoc. reflexivity.
Qed.
Lemma chunk_class head ls k n mk body :
  one_line head -> unindent head <> [] -> read_line (unindent head) = inr (InClass k n mk []) -> body_of ls body ->
  chunk ([head] ++ ls ++ [lit "    }"]) [Class k n mk body].
Proof.
  intros O N R [B F] rest. unfold splits in *. rewrite !flat_map_app, <- !app_assoc. cbn [flat_map].
  rewrite (split_on_no_sep _ _ O). cbn [app read]. rewrite R. destruct (unindent head) as [|c h]; [congruence|].
  rewrite (read_body k n mk _ [] _ body B F). rewrite !app_nil_r.
  change (split_on newline (lit "    }")) with [lit "    }"]. cbn [app read].
  change (is (unindent (lit "    }")) "}") with true. cbv iota. rewrite rev_involutive. destruct (read Top rest); reflexivity.
Qed.

(** Words. *)
Lemma words_sep a b : ~ In space a -> words (a ++ space :: b) = a :: words b.
Proof. apply split_on_app_sep. Qed.
Lemma words_one a : ~ In space a -> words a = [a].
Proof. apply split_on_no_sep. Qed.
Lemma ids_free c s : id_ch c = false -> ids s -> ~ In c s.
Proof. intros C S I. rewrite forallb_forall in S. rewrite (S c I) in C. discriminate. Qed.
Lemma ids_space s : ids s -> ~ In space s.
Proof. apply ids_free. reflexivity. Qed.
Lemma ids_line s : ids s -> one_line s.
Proof. apply ids_free. reflexivity. Qed.
Lemma one_app a b : one_line a -> one_line b -> one_line (a ++ b).
Proof. unfold one_line. rewrite in_app_iff. tauto. Qed.
Lemma one_lit s : existsb (Ascii.eqb newline) (lit s) = false -> one_line (lit s).
Proof.
  intros E I. enough (existsb (Ascii.eqb newline) (lit s) = true) by congruence. apply existsb_exists. exists newline. split; [exact I|apply Ascii.eqb_refl].
Qed.
Lemma one_nil : one_line [].
Proof. intros []. Qed.
Ltac one :=
  repeat lazymatch goal with
  | |- one_line (lit _) => apply one_lit; reflexivity
  | |- one_line (_ ++ _) => apply one_app
  | |- one_line [] => apply one_nil
  | |- one_line pad => apply one_lit; reflexivity
  | |- _ => first [assumption | apply ids_line; assumption]
  end.
Lemma unindent_first c s : Ascii.eqb c space = false -> unindent (c :: s) = c :: s.
Proof. intros C. cbn. rewrite C. reflexivity. Qed.
Lemma unindent_ids s t : ids s -> s <> [] -> unindent (s ++ t) = s ++ t.
Proof.
  intros S N. destruct s as [|c s]; [congruence|]. cbn [app]. apply unindent_first. cbn in S. apply andb_true_iff in S as [C _].
  destruct (Ascii.eqb c space) eqn:E; [|reflexivity]. apply Ascii.eqb_eq in E. subst c. discriminate.
Qed.
Lemma id_text_ne i : id_text i <> [].
Proof. unfold id_text. destruct (sid_ns i); discriminate. Qed.
Lemma not_close s t : ids s -> s <> [] -> is (s ++ t) "}" = false.
Proof.
  intros S N. destruct s as [|c s]; [congruence|]. cbn in S. apply andb_true_iff in S as [C _].
  unfold is. change (lit "}") with ["}"%char]. cbn. destruct (Ascii.eqb c "}") eqn:E; [|reflexivity]. apply Ascii.eqb_eq in E. subst c. discriminate.
Qed.

(** Lines outside of a class. *)
Lemma ids_no_arrow s : ids s -> existsb is_alnum s = true -> is_arrow s = false.
Proof.
  intros _ S. apply existsb_exists in S as (c & I & C). unfold is_arrow. destruct s as [|d s]; [reflexivity|].
  destruct (forallb _ (d :: s)) eqn:E; [|reflexivity]. rewrite forallb_forall in E. specialize (E c I).
  apply existsb_exists in E as (x & X & Y). apply Ascii.eqb_eq in Y. subst x.
  repeat (destruct X as [X|X]; [subst c; discriminate C|]). destruct X.
Qed.
Lemma identifier_alnum s : is_identifier s -> existsb is_alnum s = true.
Proof.
  intros (us & c & r & -> & _ & C & _). apply existsb_exists. exists c. split; [apply in_elt|]. unfold is_alnum. rewrite C. reflexivity.
Qed.
Lemma id_alnum i : valid_id i -> existsb is_alnum (id_text i) = true.
Proof.
  intros (_ & N & _). apply identifier_alnum in N. apply existsb_exists in N as (c & I & C). apply existsb_exists. exists c.
  split; [|exact C]. unfold id_text. apply in_or_app. right. right. apply in_or_app. left. exact I.
Qed.
Lemma ns_alnum ns : is_namespace ns -> existsb is_alnum ns = true.
Proof.
  intros (l & N & L & ->). destruct l as [|x l]; [congruence|]. inversion L as [|? ? X _]; subst. apply identifier_alnum in X.
  apply existsb_exists in X as (c & I & C). apply existsb_exists. exists c. split; [|exact C].
  destruct l; cbn [join]; [exact I|apply in_or_app; left; exact I].
Qed.
Lemma read_marked k id mk : ids id -> ~ In space mk -> k = "class"%string \/ k = "annotation"%string ->
  read_line (lit k ++ space :: id ++ space :: mk ++ space :: lit "{") = inr (InClass (lit k) id (Some mk) []).
Proof.
  intros I M [-> | ->]; unfold read_line, read_keyword; rewrite !words_sep, words_one; try (apply ids_space; assumption); try exact M;
    try (apply ids_space; reflexivity); try reflexivity; intros [X|[]]; discriminate X.
Qed.
Lemma read_unmarked k id : ids id -> is_arrow id = false -> k = "class"%string \/ k = "annotation"%string ->
  read_line (lit k ++ space :: id ++ space :: lit "{") = inr (InClass (lit k) id None []).
Proof.
  intros I A [-> | ->]; unfold read_line, read_keyword; rewrite !words_sep, words_one; try (apply ids_space; assumption);
    try (apply ids_space; reflexivity); try (rewrite A; reflexivity); intros [X|[]]; discriminate X.
Qed.
Lemma read_link a arrow b : ~ In space a -> ~ In space arrow -> ~ In space b -> is_arrow arrow = true ->
  read_line (a ++ space :: arrow ++ space :: b) = inl (Link a arrow b).
Proof.
  intros SA SW SB A. unfold read_line. rewrite !words_sep, words_one by assumption. rewrite A. reflexivity.
Qed.
Lemma note_ids id n : ids id -> ids (id ++ lit "_note_" ++ nat_to_str (Z.of_nat n)).
Proof. intros I. rewrite !forallb_app, I. unfold nat_to_str. rewrite GraphMLFacts.digits_plain by reflexivity. reflexivity. Qed.

Definition debug_ok (debug_str : str -> str) : Prop :=
  forall s, one_line (debug_str s) /\ exists t, debug_str s = dquote :: t.
Lemma read_quote q name : ids name -> read_line (lit "note" ++ space :: (dquote :: q) ++ space :: lit "as" ++ space :: name) = inl (Note false name (dquote :: q)).
Proof.
  intros N.
  assert (words (lit "note" ++ space :: (dquote :: q) ++ space :: lit "as" ++ space :: name)
          = lit "note" :: split_on space (dquote :: q) ++ [lit "as"; name]) as W0.
  { rewrite words_sep by (intros [X|[X|[X|[X|[]]]]]; discriminate X). f_equal. unfold words. rewrite split_app_sep. f_equal.
    rewrite split_on_app_sep by (intros [X|[X|[]]]; discriminate X). rewrite split_on_no_sep by (apply ids_space; exact N). reflexivity. }
  assert (forall x, words x = lit "note" :: split_on space (dquote :: q) ++ [lit "as"; name] -> read_line x = read_keyword x) as RK.
  { intros x E. unfold read_line. rewrite E. destruct (split_on space (dquote :: q)) as [|p [|p' ps]]; [|reflexivity|].
    - cbn [app]. reflexivity.
    - cbn [app]. destruct ps; reflexivity. }
  rewrite (RK _ W0). clear RK. unfold read_keyword. rewrite W0. clear W0.
  pose proof (join_split space (dquote :: q)) as J.
  assert (exists p ps, split_on space (dquote :: q) = (dquote :: p) :: ps) as (p & ps & W).
  { cbn [split_on]. change (Ascii.eqb dquote space) with false. cbv iota. destruct (split_on space q); eauto. }
  rewrite W in *. cbn [app].
  change (is (lit "note") "package") with false. change (is (lit "note") "class") with false. change (is (lit "note") "annotation") with false.
  change (is (lit "note") "note") with true. change (is (dquote :: p) "as") with false. cbn [orb]. cbv iota.
  unfold read_note. change ((dquote :: p) :: ps ++ [lit "as"; name]) with (((dquote :: p) :: ps) ++ [lit "as"; name]).
  rewrite rev_app_distr. cbn [rev app]. change (is (lit "as") "as") with true. cbv iota. cbn [option_map fst snd or_other].
  rewrite rev_app_distr, rev_involutive. cbn [rev app]. rewrite J. reflexivity.
Qed.
Lemma contains_newline d : contains_ch eol d = if in_dec Ascii.ascii_dec newline d then true else false.
Proof.
  unfold contains_ch. destruct (in_dec _ _ _) as [I|N].
  - apply existsb_exists. exists newline. split; [exact I|reflexivity].
  - apply Bool.not_true_is_false. intros E. apply existsb_exists in E as (c & I & Q). apply N. apply Ascii.eqb_eq in Q. subst c. exact I.
Qed.
Lemma chunk_notes debug_str id : debug_ok debug_str -> valid_id id -> forall docs n,
  chunk (write_class_notes debug_str id n docs) (notes debug_str id n docs).
Proof.
  intros D V. induction docs as [|d docs IH]; intros n; [apply chunk_nil|]. cbn [write_class_notes notes].
  rewrite sid_display_text. pose proof (GraphMLFacts.id_text_ids _ V) as I. pose proof (note_ids _ n I) as NI.
  set (name := id_text id ++ lit "_note_" ++ nat_to_str (Z.of_nat n)) in *.
  destruct (D d) as (DO & q & Q).
  rewrite <- contains_newline.
  change (Note (contains_ch eol d) name (debug_str d) :: Link (id_text id) (lit "..") name :: notes debug_str id (S n) docs)
    with ([Note (contains_ch eol d) name (debug_str d)] ++ [Link (id_text id) (lit "..") name] ++ notes debug_str id (S n) docs).
  apply chunk_app; [|apply chunk_app; [|apply IH]].
  - destruct (contains_ch eol d).
    + intros rest. unfold splits. cbn [flat_map].
      rewrite (split_on_no_sep newline (lit "    note as " ++ name)) by (apply (one_app (lit "    note as ") name); one).
      rewrite (split_on_no_sep newline (debug_str d)) by exact DO.
      change (split_on newline (lit "    end note")) with [lit "    end note"].
      cbn [app read]. change (unindent (lit "    note as " ++ name)) with (lit "note" ++ space :: lit "as" ++ space :: name).
      assert (read_line (lit "note" ++ space :: lit "as" ++ space :: name) = inr (InNote name [])) as R.
      { unfold read_line, read_keyword. rewrite !words_sep, words_one; [reflexivity|apply ids_space; exact NI| |];
          [intros [X|[X|[]]]; discriminate X|intros [X|[X|[X|[X|[]]]]]; discriminate X]. }
      rewrite R. change (lit "note" ++ space :: lit "as" ++ space :: name) with ("n"%char :: (lit "ote" ++ space :: lit "as" ++ space :: name)).
      cbv iota. rewrite Q. change (unindent (dquote :: q)) with (dquote :: q).
      change (is (dquote :: q) "end note") with false. change (is (unindent (lit "    end note")) "end note") with true. cbv iota.
      cbn [rev app join]. destruct (read Top rest); reflexivity.
    + apply chunk_line; [rewrite Q in *; one|discriminate|].
      change (unindent (lit "    note " ++ debug_str d ++ lit " as " ++ name)) with (lit "note" ++ space :: debug_str d ++ space :: lit "as" ++ space :: name).
      rewrite Q. apply read_quote. exact NI.
  - apply chunk_line; [one| |].
    + change (unindent (lit "    " ++ ?x)) with (unindent x). rewrite (unindent_ids _ _ I (id_text_ne id)).
      intros X. apply app_eq_nil in X as [X _]. apply (id_text_ne id X).
    + change (unindent (lit "    " ++ ?x)) with (unindent x). rewrite (unindent_ids _ _ I (id_text_ne id)).
      change (lit " .. " ++ name) with (space :: lit ".." ++ space :: name).
      apply read_link; [apply ids_space; exact I|intros [X|[X|[]]]; discriminate X|apply ids_space; exact NI|reflexivity].
Qed.
Lemma chunk_owns id rs : valid_id id -> Forall valid_id rs -> chunk (resource_links id rs) (owns id rs).
Proof.
  intros V F. unfold resource_links, owns. apply chunk_map. intros r R. rewrite Forall_forall in F. specialize (F r R).
  rewrite !sid_display_text. pose proof (GraphMLFacts.id_text_ids _ V) as I. pose proof (GraphMLFacts.id_text_ids _ F) as J.
  apply chunk_line; [one| |]; change (unindent (lit "    " ++ ?x)) with (unindent x); rewrite (unindent_ids _ _ I (id_text_ne id)).
  - intros X. apply app_eq_nil in X as [X _]. apply (id_text_ne id X).
  - change (lit " *-- " ++ id_text r) with (space :: lit "*--" ++ space :: id_text r).
    apply read_link; [apply ids_space; exact I|intros [X|[X|[X|[]]]]; discriminate X|apply ids_space; exact J|reflexivity].
Qed.

(* ------------------------------------------------------------ the lines within classes *)
Section Bodies.
  Context `{Hasher}.
  Variables (f64_str : Z -> str) (debug_str : str -> str) (expand : bool).
  Hypothesis F64 : forall b, one_line (f64_str b).
  Hypothesis DBG : debug_ok debug_str.

  Lemma int_one z : one_line (int_to_str z).
  Proof.
    unfold int_to_str. assert (forall n, one_line (nat_to_str n)) as N.
    { intros n. apply ids_line. unfold nat_to_str. apply GraphMLFacts.digits_plain. reflexivity. }
    destruct (z <? 0)%Z; [|apply N]. intros [X|X]; [discriminate X|]. exact (N _ X).
  Qed.
  Lemma trait_value_one v : (forall s, v = Some (VString s) -> one_line s) -> one_line (trait_value f64_str v).
  Proof.
    intros S. destruct v as [v|]; [|apply one_nil]. destruct v as [vs|vs|n|b|s|]; cbn [trait_value].
    - one.
    - one.
    - destruct n; one; [apply int_one|apply F64].
    - destruct b; one.
    - specialize (S s eq_refl). one.
    - apply one_nil.
  Qed.

  Lemma trait_body s : valid_shape s -> tame_shape s -> body_of (trait_part f64_str (ts_traits s)) (trait_lines f64_str (ts_traits s)).
  Proof.
    intros (_ & V & _) (T & _). unfold trait_part, trait_lines, trait_pads.
    destruct (filter shown (ts_traits s)) as [|t l] eqn:E; [apply body_nil|].
    assert (forall x, In x (t :: l) -> ids (id_text (fst x)) /\ one_line (trait_value f64_str (snd x))) as X.
    { intros [i v] I. rewrite <- E in I. apply filter_In in I as [I S]. cbn [fst snd]. split.
      - apply GraphMLFacts.id_text_ids. exact (V _ _ I).
      - apply trait_value_one. intros u ->. apply (T i u I). unfold shown in S. apply andb_true_iff in S as [_ S].
        apply negb_true_iff in S. exact S. }
    clear E V T. change (map ?f (t :: l)) with (f t :: map f l).
    set (f := fun t : shape_id * option value => lit "    @" ++ id_text (fst t) ++ trait_value f64_str (snd t)).
    set (g := fun t : shape_id * option value => "@"%char :: id_text (fst t) ++ trait_value f64_str (snd t)).
    cbv beta iota. change (f t :: map f l) with (map f (t :: l)). change (g t :: map g l) with (map g (t :: l)).
    assert (forall x, In x (t :: l) -> one_line (f x) /\ unindent (f x) = g x /\ is (g x) "}" = false) as Y.
    { intros x I. destruct (X x I) as [A B]. split; [unfold f; one|]. split; reflexivity. }
    change ((lit "    " ++ join [eol] (map f (t :: l))) :: [pad ++ lit ".."]) with ([lit "    " ++ join [eol] (map f (t :: l))] ++ [pad ++ lit ".."]).
    apply body_app; [|apply body_line; [one|reflexivity|reflexivity]].
    assert (lit "    " ++ join [eol] (map f (t :: l)) = join [eol] ((lit "    " ++ f t) :: map f l)) as J.
    { cbn [map join]. destruct (map f l); [reflexivity|]. cbn [join]. rewrite <- app_assoc. reflexivity. }
    split.
    - unfold splits. cbn [flat_map]. rewrite J, app_nil_r. change eol with newline. rewrite split_join; [|discriminate|].
      + cbn [map]. change (unindent (lit "    " ++ ?x)) with (unindent x). apply f_equal2; [apply Y; left; reflexivity|].
        rewrite map_map. apply map_ext_in. intros x I. apply Y. right. exact I.
      + constructor; [|apply Forall_forall; intros y I; apply in_map_iff in I as (x & <- & I); apply Y; right; exact I].
        apply (one_app (lit "    ") (f t)); [one|]. apply Y. left. reflexivity.
    - apply Forall_forall. intros y I. apply in_map_iff in I as (x & <- & I). apply Y. exact I.
  Qed.

  Lemma stored_shape m id s : model_shape m id = Some s -> exists k, In (k, s) (m_shapes m).
  Proof. intros G. apply (hm_get_Some_In _) in G as (k & I & _). eauto. Qed.
  Lemma shown_one m id : tame m -> valid_id id -> one_line (shown_type m id).
  Proof.
    intros T V. unfold shown_type. destruct (model_shape m id) as [[i ts b]|] eqn:E;
      [|apply ids_line, GraphMLFacts.id_text_ids; exact V].
    apply stored_shape in E as (k & I). destruct (T _ _ I) as ((_ & _ & X & _) & _). cbn [ts_body] in X.
    assert (forall n t, In (n, t) (GraphMLSpec.targets b) -> ids (sid_name t)) as Y.
    { intros n t J. destruct (X n t J) as (_ & _ & N & _). apply GraphMLFacts.identifier_ids. exact N. }
    destruct b; try (apply ids_line, GraphMLFacts.id_text_ids; exact V).
    - destruct s; apply ids_line; reflexivity.
    - assert (ids (sid_name (ms_target m0))) by (eapply Y; left; reflexivity). one.
    - assert (ids (sid_name (ms_target m0))) by (eapply Y; left; reflexivity). one.
    - assert (ids (sid_name (ms_target k0))) by (eapply Y; left; reflexivity).
      assert (ids (sid_name (ms_target v))) by (eapply Y; right; left; reflexivity). one.
  Qed.
  Lemma method_body m label id : tame m -> label = None \/ label = Some (lit "create") ->
    body_of [pad ++ method m label id] [method m label id].
  Proof.
    intros T L. unfold method. destruct (model_shape m id) as [[i ts b]|] eqn:E; [|apply body_line; [one|reflexivity|reflexivity]].
    destruct b as [| | | | | | |o| |]; try (apply body_line; [one|reflexivity|reflexivity]).
    apply stored_shape in E as (k & I). destruct (T _ _ I) as ((V & _ & X & _) & _). cbn [ts_body ts_id] in *.
    set (l := match label with Some l => l | None => id_text i end).
    assert (ids l /\ l <> []) as [LI LN].
    { destruct L as [-> | ->]; [split; [apply GraphMLFacts.id_text_ids; exact V|apply id_text_ne]|split; [reflexivity|discriminate]]. }
    apply body_line.
    - repeat apply one_app; one.
      + destruct (op_input o) as [x|] eqn:O; [|apply one_nil]. apply shown_one; [exact T|].
        apply (X (lit "input") x). cbn [GraphMLSpec.targets]. rewrite O. left. reflexivity.
      + destruct (op_output o) as [x|] eqn:O; [|apply one_nil]. apply one_app; [one|]. apply shown_one; [exact T|].
        apply (X (lit "output") x). cbn [GraphMLSpec.targets]. rewrite O, !in_app_iff. right; left. left. reflexivity.
    - change (unindent (pad ++ ?x)) with (unindent x). apply unindent_ids; assumption.
    - apply not_close; assumption.
  Qed.
  Lemma methods_body m label l : tame m -> label = None \/ label = Some (lit "create") ->
    body_of (op_lines m label l) (map (method m label) l).
  Proof. intros T L. apply body_map. intros x _. apply method_body; assumption. Qed.
  Lemma group_body m h l : tame m -> h = "operations"%string \/ h = "collectionOperations"%string ->
    body_of (group_lines m h l) (methods m h l).
  Proof.
    intros T Hh. unfold group_lines, methods. destruct l as [|x l]; [apply body_nil|].
    change (map (app pad) (?a :: ?b)) with ([pad ++ a] ++ map (app pad) b).
    change (?a :: map (method m None) (x :: l)) with ([a] ++ map (method m None) (x :: l)).
    apply body_app.
    - destruct Hh as [-> | ->]; apply body_line; try reflexivity; one.
    - rewrite map_map. apply (methods_body m None (x :: l)); auto.
  Qed.
  Lemma field_body n t : ids n -> n <> [] -> ids t -> body_of [pad ++ field n t] [field n t].
  Proof.
    intros N E T. unfold field. apply body_line; [one| |].
    - change (unindent (pad ++ ?x)) with (unindent x). apply unindent_ids; assumption.
    - apply not_close; assumption.
  Qed.
  Lemma identifier_ne s : is_identifier s -> s <> [].
  Proof. intros (us & c & r & -> & _) X. apply app_eq_nil in X as [_ X]. discriminate X. Qed.

  Definition prose1 (l : str) : list item := match unindent l with [] => [] | l' => [Other l'] end.
  Lemma read_plain ls : Forall plain ls -> forall rest, read Top (ls ++ rest) = option_map (app (flat_map prose1 ls)) (read Top rest).
  Proof.
    induction 1 as [|l ls P PS IH]; intros rest; [cbn; destruct (read Top rest); reflexivity|].
    cbn [app read flat_map]. unfold prose1 at 1. destruct P as [E|R].
    - rewrite E. cbn [app]. apply IH.
    - destruct (unindent l) as [|c u]; [apply IH|]. rewrite R, IH. destruct (read Top rest); reflexivity.
  Qed.
  Lemma chunk_docs docs : (forall d, In d docs -> Forall plain (split_on newline d)) ->
    chunk [lit "    " ++ join [eol] docs] (flat_map prose docs).
  Proof.
    intros P rest. unfold splits. cbn [flat_map]. rewrite app_nil_r.
    destruct docs as [|d docs]; [change (join [eol] []) with (@nil ascii); rewrite app_nil_r;
      change (split_on newline (lit "    ")) with [lit "    "]; cbn [app read flat_map];
      change (unindent (lit "    ")) with (@nil ascii); destruct (read Top rest); reflexivity|].
    assert (split_on newline (join [eol] (d :: docs)) = flat_map (split_on newline) (d :: docs)) as J.
    { clear P. revert d. induction docs as [|e docs IH]; intros d; [cbn; rewrite app_nil_r; reflexivity|].
      change (join [eol] (d :: e :: docs)) with (d ++ newline :: join [eol] (e :: docs)). rewrite split_app_sep, IH. reflexivity. }
    assert (split_on newline (lit "    " ++ join [eol] (d :: docs))
      = match split_on newline (join [eol] (d :: docs)) with p :: ps => (lit "    " ++ p) :: ps | [] => [] end) as K.
    { generalize (join [eol] (d :: docs)). intros x. change (lit "    " ++ x) with (" " :: " " :: " " :: " " :: x)%char. cbn [split_on].
      change (Ascii.eqb " " newline) with false. cbv iota. destruct (split_on newline x) eqn:E; [apply split_on_nonempty in E; destruct E|]. reflexivity. }
    rewrite K, J. assert (Forall plain (flat_map (split_on newline) (d :: docs))) as PL.
    { apply Forall_forall. intros l L. apply in_flat_map in L as (x & X & L). specialize (P x X). rewrite Forall_forall in P. auto. }
    assert (flat_map prose (d :: docs) = flat_map prose1 (flat_map (split_on newline) (d :: docs))) as Q.
    { clear. generalize (d :: docs). intros l. induction l as [|x l IH]; [reflexivity|]. cbn [flat_map]. rewrite flat_map_app, IH. reflexivity. }
    rewrite Q. destruct (flat_map (split_on newline) (d :: docs)) as [|p ps] eqn:E.
    { cbn [flat_map] in E. apply app_eq_nil in E as [E _]. apply split_on_nonempty in E. destruct E. }
    change (flat_map prose1 (p :: ps)) with (flat_map prose1 ((lit "    " ++ p) :: ps)).
    apply read_plain. inversion PL; subst. constructor; [assumption|assumption].
  Qed.

  Lemma named_in n l x : In x l -> In (lit n, x) (GraphMLSpec.named n l).
  Proof. intros I. unfold GraphMLSpec.named. apply in_map_iff. eauto. Qed.

  Lemma head_class id mk : ids id -> ids mk ->
    let h := lit "    class " ++ id ++ lit " <<" ++ mk ++ lit ">> {" in
    one_line h /\ unindent h <> [] /\ read_line (unindent h) = inr (InClass (lit "class") id (Some (lit "<<" ++ mk ++ lit ">>")) []).
  Proof.
    intros I M h. unfold h. split; [one|]. split; [discriminate|].
    assert (unindent (lit "    class " ++ id ++ lit " <<" ++ mk ++ lit ">> {")
            = lit "class" ++ space :: id ++ space :: (lit "<<" ++ mk ++ lit ">>") ++ space :: lit "{") as ->.
    { change (unindent (lit "    class " ++ ?x)) with (lit "class" ++ space :: x). do 2 f_equal.
      change (space :: ?x) with (lit " " ++ x). rewrite <- !app_assoc. reflexivity. }
    apply read_marked; [exact I| |left; reflexivity]. rewrite !in_app_iff.
    intros [[X|[X|[]]]|[X|[X|[X|[]]]]]; try discriminate X. exact (ids_space _ M X).
  Qed.
  Lemma head_plain k id : ids id -> is_arrow id = false -> k = "class"%string \/ k = "annotation"%string ->
    let h := lit "    " ++ lit k ++ lit " " ++ id ++ lit " {" in
    one_line h /\ unindent h <> [] /\ read_line (unindent h) = inr (InClass (lit k) id None []).
  Proof.
    intros I A K h. unfold h. split; [destruct K as [-> | ->]; one|].
    assert (unindent (lit "    " ++ lit k ++ lit " " ++ id ++ lit " {") = lit k ++ space :: id ++ space :: lit "{") as ->.
    { destruct K as [-> | ->]; reflexivity. }
    split; [destruct K as [-> | ->]; discriminate|apply read_unmarked; assumption].
  Qed.

  Lemma class_chunk s (union : bool) ms :
    valid_shape s -> tame_shape s -> ts_body s = (if union then KUnion ms else KStructure ms) ->
    chunk (write_class f64_str debug_str s union ms)
      (class_of f64_str s union ms :: notes debug_str (ts_id s) 0 (documentation (ts_traits s))).
  Proof.
    intros V T B. unfold write_class. rewrite class_traits. pose proof (trait_body s V T) as TB.
    destruct V as (VI & _ & VM & _). pose proof (GraphMLFacts.id_text_ids _ VI) as I. pose proof (ids_no_arrow _ I (id_alnum _ VI)) as NA.
    assert (body_of (trait_part f64_str (ts_traits s)
                     ++ map (fun mb => lit "        " ++ ms_id mb ++ lit ": " ++ sid_display (ms_target mb)) (hm_values ms))
              (trait_lines f64_str (ts_traits s) ++ map (fun e => field (ms_id (snd e)) (id_text (ms_target (snd e)))) ms)) as BD.
    { apply body_app; [exact TB|]. unfold hm_values. rewrite map_map. apply body_map. intros e E.
      assert (is_identifier (ms_id (snd e)) /\ valid_id (ms_target (snd e))) as [N W].
      { apply VM. rewrite B. destruct union; cbn [GraphMLSpec.targets]; apply in_map_iff; exists e; auto. }
      rewrite sid_display_text. apply field_body; [apply GraphMLFacts.identifier_ids; exact N|apply identifier_ne; exact N|apply GraphMLFacts.id_text_ids; exact W]. }
    rewrite sid_display_text. unfold class_of.
    set (hd := if has_trait pu_trait (ts_traits s) then _ else _).
    set (cl := if has_trait trait_api (ts_traits s) then _ else _).
    assert (chunk ([hd] ++ (trait_part f64_str (ts_traits s)
                     ++ map (fun mb => lit "        " ++ ms_id mb ++ lit ": " ++ sid_display (ms_target mb)) (hm_values ms)) ++ [lit "    }"]) [cl]) as C.
    { unfold hd, cl. change pu_trait with trait_api. change pu_error with error_api.
      destruct (has_trait trait_api (ts_traits s)); [|destruct (has_trait error_api (ts_traits s)); [|destruct union]].
      - destruct (head_plain "annotation" (id_text (ts_id s)) I NA (or_intror eq_refl)) as (O & N & R). apply chunk_class; assumption.
      - destruct (head_class (id_text (ts_id s)) (lit "error") I eq_refl) as (O & N & R). apply chunk_class; assumption.
      - destruct (head_class (id_text (ts_id s)) (lit "union") I eq_refl) as (O & N & R). apply chunk_class; assumption.
      - destruct (head_plain "class" (id_text (ts_id s)) I NA (or_introl eq_refl)) as (O & N & R). apply chunk_class; assumption. }
    pose proof (chunk_app _ _ _ _ C (chunk_app _ _ _ _ (chunk_notes debug_str (ts_id s) DBG VI (documentation (ts_traits s)) 0) chunk_blank)) as Z.
    rewrite app_nil_r in Z. rewrite <- !app_assoc in Z. exact Z.
  Qed.

  Lemma tail_chunk s links : valid_id (ts_id s) -> Forall valid_id links ->
    chunk (tail_lines debug_str s links) (notes debug_str (ts_id s) 0 (documentation (ts_traits s)) ++ owns (ts_id s) links).
  Proof.
    intros V L. unfold tail_lines.
    pose proof (chunk_app _ _ _ _ (chunk_notes debug_str (ts_id s) DBG V (documentation (ts_traits s)) 0)
      (chunk_app _ _ _ _ (chunk_owns (ts_id s) links V L) chunk_blank)) as Z. rewrite app_nil_r in Z. exact Z.
  Qed.

  Lemma element_chunk m k s : tame m -> In (k, s) (m_shapes m) ->
    chunk (element_lines f64_str debug_str expand m s) (shape_diagram f64_str debug_str expand m s).
  Proof.
    intros TM IN. destruct (TM k s IN) as [V T]. pose proof (trait_body s V T) as TB.
    pose proof V as (VI & _ & VM & VR). pose proof (GraphMLFacts.id_text_ids _ VI) as I.
    unfold element_lines, shape_diagram. destruct (ts_body s) as [st| | | |ms|ms|sv|o|r|] eqn:B; try apply chunk_nil.
    - unfold write_data_type. rewrite class_traits, sid_display_text.
      destruct (head_class (id_text (ts_id s)) (lit "dataType") I eq_refl) as (O & N & R).
      pose proof (chunk_class _ _ _ _ _ _ O N R TB) as C.
      destruct T as (_ & _ & TD).
      assert (chunk (if expand then [lit "    smithy.api." ++ simple_display st ++ lit " <|-- " ++ id_text (ts_id s)] else [])
        (if expand then [Link (lit "smithy.api." ++ GraphMLSpec.type_name (KSimple st)) (lit "<|--") (id_text (ts_id s))] else [])) as E.
      { destruct expand; [|apply chunk_nil]. replace (simple_display st) with (GraphMLSpec.type_name (KSimple st)) by (destruct st; reflexivity).
        assert (ids (GraphMLSpec.type_name (KSimple st))) as TI by (destruct st; reflexivity).
        apply chunk_line; [one|discriminate|].
        assert (unindent (lit "    smithy.api." ++ GraphMLSpec.type_name (KSimple st) ++ lit " <|-- " ++ id_text (ts_id s))
          = (lit "smithy.api." ++ GraphMLSpec.type_name (KSimple st)) ++ space :: lit "<|--" ++ space :: id_text (ts_id s)) as ->.
        { change (unindent (lit "    smithy.api." ++ ?x)) with (lit "smithy.api." ++ x). rewrite <- app_assoc. reflexivity. }
        apply read_link; [|intros [X|[X|[X|[X|[]]]]]; discriminate X|apply ids_space; exact I|reflexivity].
        apply ids_space. rewrite forallb_app, TI. reflexivity. }
      pose proof (chunk_app _ _ _ _ C (chunk_app _ _ _ _ (chunk_docs _ (fun d => TD st d B)) (chunk_app _ _ _ _ E chunk_blank))) as Z.
      rewrite app_nil_r in Z. rewrite <- !app_assoc in Z. exact Z.
    - apply (class_chunk s false ms V T B).
    - apply (class_chunk s true ms V T B).
    - destruct (head_class (id_text (ts_id s)) (lit "service") I eq_refl) as (O & N & R).
      assert (one_line (sv_version sv)) as VO by (apply T; exact B).
      assert (body_of (trait_part f64_str (ts_traits s) ++ [pad ++ lit "version: string = """ ++ sv_version sv ++ lit """"] ++ op_lines m None (sv_operations sv))
        (trait_lines f64_str (ts_traits s) ++ [lit "version: string = """ ++ sv_version sv ++ lit """"] ++ map (method m None) (sv_operations sv))) as BD.
      { apply body_app; [exact TB|]. apply body_app; [apply body_line; [one|reflexivity|reflexivity]|]. apply methods_body; auto. }
      pose proof (chunk_class _ _ _ _ _ _ O N R BD) as C.
      assert (Forall valid_id (sv_resources sv)) as L.
      { apply Forall_forall. intros x X. apply (VM (lit "resources")). cbn [GraphMLSpec.targets]. apply in_or_app. right. apply named_in. exact X. }
      pose proof (chunk_app _ _ _ _ C (tail_chunk s _ VI L)) as Z. rewrite <- !app_assoc in Z. rewrite <- !app_assoc. exact Z.
    - destruct (head_class (id_text (ts_id s)) (lit "resource") I eq_refl) as (O & N & R).
      assert (body_of (trait_part f64_str (ts_traits s)
            ++ map (fun e => pad ++ field (fst e) (id_text (snd e))) (rs_identifiers r)
            ++ op_lines m (Some (lit "create")) (lifecycle r)
            ++ group_lines m "operations" (rs_operations r)
            ++ group_lines m "collectionOperations" (rs_collection_operations r))
          (trait_lines f64_str (ts_traits s)
           ++ map (fun e => field (fst e) (id_text (snd e))) (rs_identifiers r)
           ++ map (method m (Some (lit "create"))) (lifecycle r)
           ++ methods m "operations" (rs_operations r)
           ++ methods m "collectionOperations" (rs_collection_operations r))) as BD.
      { apply body_app; [exact TB|]. apply body_app.
        - apply body_map. intros [n t] E. destruct (VR r n t eq_refl E) as [NI TI]. cbn [fst snd].
          apply field_body; [apply GraphMLFacts.identifier_ids; exact NI|apply identifier_ne; exact NI|apply GraphMLFacts.id_text_ids; exact TI].
        - apply body_app; [apply methods_body; auto|]. apply body_app; apply group_body; auto. }
      pose proof (chunk_class _ _ _ _ _ _ O N R BD) as C.
      assert (Forall valid_id (rs_resources r)) as L.
      { apply Forall_forall. intros x X. apply (VM (lit "resources")). cbn [GraphMLSpec.targets]. rewrite !in_app_iff. do 8 right. apply named_in. exact X. }
      pose proof (chunk_app _ _ _ _ C (tail_chunk s _ VI L)) as Z. rewrite <- !app_assoc in Z. rewrite <- !app_assoc. exact Z.
  Qed.

  Lemma package_chunk m ns : tame m -> is_namespace ns -> chunk (package_lines f64_str debug_str expand m ns) (package_diagram f64_str debug_str expand m ns).
  Proof.
    intros T NS. pose proof (ns_alnum _ NS) as AL. destruct NS as (l & LN & L & ->). pose proof (GraphMLFacts.join_ids _ L) as NI. unfold package_lines, package_diagram.
    pose proof (ids_no_arrow _ NI AL) as NA.
    set (ns := join ["."%char] l) in *.
    assert (chunk [lit "package " ++ ns ++ lit " {"] [Package ns]) as P.
    { apply chunk_line; [one|discriminate|].
      change (unindent (lit "package " ++ ns ++ lit " {")) with (lit "package" ++ space :: ns ++ space :: lit "{").
      unfold read_line, read_keyword. rewrite !words_sep, words_one; [rewrite NA; reflexivity| | |].
      - intros [X|[]]; discriminate X.
      - apply ids_space; exact NI.
      - apply ids_space; reflexivity. }
    assert (chunk (flat_map (element_lines f64_str debug_str expand m) (shapes m))
              (flat_map (fun e => shape_diagram f64_str debug_str expand m (snd e)) (m_shapes m))) as S.
    { unfold shapes, hm_values. rewrite flat_map_concat_map, map_map, <- flat_map_concat_map. apply chunk_flat. intros [k s] I. apply (element_chunk m k s T I). }
    assert (chunk [lit "}"] [PackageEnd]) as E by (apply chunk_line; [one|discriminate|reflexivity]).
    pose proof (fun x y X => chunk_app _ _ _ _ P (chunk_app _ _ _ _ chunk_blank (chunk_app _ _ _ _ S (chunk_app _ x _ y E X)))) as Z.
    apply (Z (if expand then [ns ++ lit " ..> smithy.api"] else []) (if expand then [Link ns (lit "..>") (lit "smithy.api")] else [])).
    clear Z. destruct expand; [|apply chunk_nil].
    apply chunk_line; [one| |].
    - rewrite (unindent_ids _ _ NI); [destruct ns; [discriminate AL|discriminate]|destruct ns; discriminate].
    - rewrite (unindent_ids _ _ NI) by (destruct ns; discriminate).
      change (lit " ..> smithy.api") with (space :: lit "..>" ++ space :: lit "smithy.api").
      apply read_link; [apply ids_space; exact NI|intros [X|[X|[X|[]]]]; discriminate X|apply ids_space; reflexivity|reflexivity].
  Qed.

  Lemma primitives_chunk : chunk write_smithy_model primitives.
  Proof.
    set (ss := [SBlob; SBoolean; SDocument; SString; SByte; SShort; SInteger; SLong; SFloat; SDouble; SBigInteger; SBigDecimal; STimestamp]).
    change write_smithy_model with ([lit "package smithy.api {"] ++ map (fun s => lit "    class " ++ simple_display s ++ lit " <<primitive>> { }") ss ++ [lit "}"] ++ [[]]).
    change primitives with ([Package (lit "smithy.api")]
      ++ map (fun s => Class (lit "class") (GraphMLSpec.type_name (KSimple s)) (Some (mark "primitive")) []) ss ++ [PackageEnd] ++ []).
    repeat apply chunk_app; try apply chunk_blank; try (apply chunk_line; [one|discriminate|reflexivity]).
    apply chunk_map. intros s _. apply chunk_line; [|discriminate|destruct s; reflexivity].
    assert (ids (simple_display s)) by (destruct s; reflexivity). one.
  Qed.
  Lemma diagram_chunk ns_order m : tame m -> Forall is_namespace ns_order ->
    chunk (diagram_lines f64_str debug_str expand ns_order m) (diagram f64_str debug_str expand ns_order m).
  Proof.
    intros T N. unfold diagram_lines, diagram.
    change [lit "@startuml"; []; lit "hide empty members"; []] with ([lit "@startuml"] ++ [[]] ++ [lit "hide empty members"] ++ [[]]).
    change [Other (lit "@startuml"); Other (lit "hide empty members")] with ([Other (lit "@startuml")] ++ [] ++ [Other (lit "hide empty members")] ++ []).
    change [[]; lit "@enduml"] with ([[]] ++ [lit "@enduml"]). change [Other (lit "@enduml")] with ([] ++ [Other (lit "@enduml")]).
    repeat apply chunk_app; try apply chunk_blank; try (apply chunk_line; [one|discriminate|reflexivity]).
    - destruct expand; [apply primitives_chunk|apply chunk_nil].
    - apply chunk_flat. intros ns I. rewrite Forall_forall in N. apply package_chunk; auto.
  Qed.
  Lemma diagram_read ns_order m : tame m -> Forall is_namespace ns_order ->
    read_diagram (text_of (diagram_lines f64_str debug_str expand ns_order m)) = Some (diagram f64_str debug_str expand ns_order m).
  Proof.
    intros T N. unfold read_diagram. rewrite split_text. fold (splits (diagram_lines f64_str debug_str expand ns_order m)).
    rewrite (diagram_chunk _ _ T N [[]]). cbn. rewrite app_nil_r. reflexivity.
  Qed.
End Bodies.
