(** Documents without texts and comments are balanced. *)
From Verif.Model Require Import Values.
From Verif.Spec Require Import IdlLanguageSpec.
From Verif.Proofs Require Import BaseFacts.

Lemma times_app c a b : times c (a ++ b) = times c a + times c b.
Proof. apply count_occ_app. Qed.
Lemma bare_app a b : bare (a ++ b) -> bare a /\ bare b.
Proof. intros [Q S]. rewrite in_app_iff in Q, S. unfold bare. tauto. Qed.
Lemma balanced_nil : balanced [].
Proof. repeat split. Qed.
Lemma balanced_app a b : balanced a -> balanced b -> balanced (a ++ b).
Proof. intros (A1 & A2 & A3) (B1 & B2 & B3). unfold balanced. rewrite !times_app. lia. Qed.
(** Texts of [L] are balanced. *)
Definition even (L : lang) : Prop := forall t, L t -> bare t -> balanced t.
Lemma even_parts ls : Forall even ls -> even (parts ls).
Proof.
  intros F. induction F as [|l ls E _ IH]; intros t T B; [cbn in T; subst t; apply balanced_nil|].
  destruct T as (a & b & A & T & ->). apply bare_app in B as [B1 B2]. apply balanced_app; auto.
Qed.
Lemma even_many L : even L -> even (many L).
Proof.
  intros E t M. induction M as [|a b A _ IH]; intros B; [apply balanced_nil|]. apply bare_app in B as [B1 B2]. apply balanced_app; auto.
Qed.
Lemma even_either a b : even a -> even b -> even (either a b).
Proof. intros A B t [T|T]; auto. Qed.
Lemma even_optional a : even a -> even (optional a).
Proof. intros A t [-> |T]; [intros _; apply balanced_nil|auto]. Qed.
Lemma even_words l : Forall (fun s => balanced (lit s)) l -> even (one_of_words l).
Proof. intros F t T _. apply in_map_iff in T as (s & <- & S). rewrite Forall_forall in F. auto. Qed.
Lemma even_word s : balanced (lit s) -> even (word s).
Proof. intros B t -> _. exact B. Qed.
(** A bracket, something balanced and the other bracket. *)
Lemma balanced_round o c a : In (o, c) [("{", "}"); ("[", "]"); ("(", ")")]%string -> balanced a -> balanced (lit o ++ a ++ lit c).
Proof.
  intros I (A1 & A2 & A3). unfold balanced. rewrite !times_app.
  destruct I as [[= <- <-]|[[= <- <-]|[[= <- <-]|[]]]]; vm_compute (times _ (lit _)); cbn [plus]; lia.
Qed.
Definition no_bracket (c : ascii) : Prop := ~ In c ["{"; "}"; "["; "]"; "("; ")"]%char.
Lemma balanced_none t : Forall no_bracket t -> balanced t.
Proof.
  intros F. assert (Z : forall c, In c ["{"; "}"; "["; "]"; "("; ")"]%char -> times c t = 0).
  { intros c I. apply count_occ_not_In. intros J. rewrite Forall_forall in F. exact (F _ J I). }
  unfold balanced. rewrite !Z by (cbn; tauto). auto.
Qed.
Lemma no_bracket_range c : is_alpha c = true \/ is_digit c = true \/ c = "_"%char \/ c = "."%char -> no_bracket c.
Proof. intros H I. destruct I as [<-|[<-|[<-|[<-|[<-|[<-|[]]]]]]]; destruct H as [H|[H|[H|H]]]; discriminate H. Qed.
Lemma even_identifier : even short_identifier.
Proof.
  intros t (c & r & E & A & F) _. apply balanced_none.
  assert (R : Forall no_bracket (c :: r)).
  { constructor; [apply no_bracket_range; auto|]. eapply Forall_impl; [|exact F]. cbv beta. intros x X. apply no_bracket_range. tauto. }
  destruct E as [-> | ->]; [exact R|constructor; [apply no_bracket_range; auto|exact R]].
Qed.
Lemma even_dotted : even dotted_name.
Proof.
  intros t (ids & _ & F & ->) B. revert B. induction F as [|i ids S F IH]; intros B; [apply balanced_nil|].
  destruct ids as [|j ids]; [cbn [join] in *; apply even_identifier; assumption|].
  change (join ["."%char] (i :: j :: ids)) with (i ++ "."%char :: join ["."%char] (j :: ids)) in *. apply bare_app in B as [B1 B2].
  apply (bare_app ["."%char]) in B2 as [_ B2]. apply balanced_app; [apply even_identifier; assumption|].
  apply (balanced_app ["."%char]); [apply balanced_none; constructor; [apply no_bracket_range; auto|constructor]|auto].
Qed.
Lemma even_layout : even layout.
Proof.
  intros t L. induction L as [|c w C _ IH|b e w _ _ _ _ _]; intros B.
  - apply balanced_nil.
  - apply (bare_app [c]) in B as [_ B]. apply (balanced_app [c]); [|auto]. apply balanced_none. constructor; [|constructor].
    intros I. destruct I as [<-|[<-|[<-|[<-|[<-|[<-|[]]]]]]]; discriminate C.
  - exfalso. destruct B as [_ B]. apply B. left. reflexivity.
Qed.
Ltac no_slash B := exfalso; destruct B as [_ B]; apply B; left; reflexivity.
Ltac no_quote B := exfalso; destruct B as [B _]; apply B; left; reflexivity.
Lemma even_quoted : even quoted_text.
Proof. intros t (b & _ & ->) B. no_quote B. Qed.
Lemma even_block : even text_block.
Proof. intros t (q & r & <- & _ & ->) B. no_quote B. Qed.
Lemma even_key : even entry_key.
Proof. apply even_either; [apply even_quoted|apply even_identifier]. Qed.
Lemma even_digit : even digit.
Proof. intros t (c & C & ->) _. apply balanced_none. constructor; [apply no_bracket_range; auto|constructor]. Qed.
Ltac word_balanced := vm_compute; repeat split.
Ltac ev := lazymatch goal with
  | |- even (parts _) => apply even_parts; ev
  | |- Forall even (_ :: _) => apply Forall_cons; ev
  | |- Forall even [] => constructor
  | |- even (optional _) => apply even_optional; ev
  | |- even (either _ _) => apply even_either; ev
  | |- even (many _) => apply even_many; ev
  | |- even (word _) => apply even_word; word_balanced
  | |- even (one_of_words _) => apply even_words; repeat (apply Forall_cons; [word_balanced|]); constructor
  | |- even layout => apply even_layout
  | |- even short_identifier => apply even_identifier
  | |- even dotted_name => apply even_dotted
  | |- even entry_key => apply even_key
  | |- even quoted_text => apply even_quoted
  | |- even text_block => apply even_block
  | |- even digit => apply even_digit
  | |- even (some_of _) => unfold some_of; ev
  | _ => try assumption
  end.
Lemma even_absolute : even absolute_id. Proof. unfold absolute_id; ev. Qed.
Lemma even_ref : even shape_ref. Proof. unfold shape_ref; ev. apply even_absolute. Qed.
Lemma even_number : even number_text.
Proof.
  unfold number_text; ev. unfold integer_text. apply even_either; [ev|]. intros t (c & r & _ & C & M & ->) B.
  apply (bare_app [c]) in B as [_ B]. apply (balanced_app [c]); [|apply (even_many digit even_digit); assumption].
  apply balanced_none. constructor; [apply no_bracket_range; auto|constructor].
Qed.
Scheme node_min := Minimality for node Sort Prop
with nodes_min := Minimality for nodes Sort Prop
with entries_min := Minimality for entries Sort Prop.
Combined Scheme nodes_all from node_min, nodes_min, entries_min.
Lemma even_nodes : (forall t, node t -> bare t -> balanced t) /\ (forall t, nodes t -> bare t -> balanced t) /\ (forall t, entries t -> bare t -> balanced t).
Proof.
  apply nodes_all.
  - intros w l W _ IH B. apply bare_app in B as [_ B]. apply bare_app in B as [B1 B]. apply bare_app in B as [B2 _].
    rewrite (app_assoc w). apply (balanced_round "[" "]"); [cbn; auto|]. apply balanced_app; [apply even_layout|]; auto.
  - intros w l W _ IH B. apply bare_app in B as [_ B]. apply bare_app in B as [B1 B]. apply bare_app in B as [B2 _].
    rewrite (app_assoc w). apply (balanced_round "{" "}"); [cbn; auto|]. apply balanced_app; [apply even_layout|]; auto.
  - intros t T. apply even_number, T.
  - intros t T. revert t T. change (even (one_of_words ["true"; "false"; "null"])). ev.
  - apply even_ref.
  - apply even_block.
  - apply even_quoted.
  - intros _. apply balanced_nil.
  - intros a w l _ IHa W _ IHl B. apply bare_app in B as [B1 B]. apply bare_app in B as [B2 B3].
    apply balanced_app; [auto|]. apply balanced_app; [apply even_layout|]; auto.
  - intros _. apply balanced_nil.
  - intros k w w' v w'' l K W W' _ IHv W'' _ IHl B. apply bare_app in B as [B1 B]. apply bare_app in B as [B2 B]. apply bare_app in B as [_ B].
    apply bare_app in B as [B3 B]. apply bare_app in B as [B4 B]. apply bare_app in B as [B5 B6].
    apply balanced_app; [apply even_key; assumption|]. apply balanced_app; [apply even_layout; assumption|].
    apply balanced_app; [word_balanced|]. apply balanced_app; [apply even_layout; assumption|]. apply balanced_app; [auto|].
    apply balanced_app; [apply even_layout; assumption|auto].
Qed.
Lemma even_node : even node. Proof. exact (proj1 even_nodes). Qed.
Lemma even_entry : even entry. Proof. unfold entry; ev. apply even_node. Qed.
(** Between brackets. *)
Lemma even_round o c ls : In (o, c) [("{", "}"); ("[", "]"); ("(", ")")]%string -> Forall even ls -> even (parts (word o :: ls ++ [word c])).
Proof.
  intros I F t (a & b & -> & T & ->) B. apply bare_app in B as [_ B].
  assert (K : exists u, parts ls u /\ b = u ++ lit c).
  { clear F B. revert b T. induction ls as [|l ls IH]; intros b T.
    - destruct T as (x & y & -> & -> & ->). exists []. split; [reflexivity|]. apply app_nil_r.
    - destruct T as (x & y & X & Y & ->). apply IH in Y as (u & U & ->). exists (x ++ u). split; [exists x, u; auto|]. apply app_assoc. }
  destruct K as (u & U & ->). apply bare_app in B as [B _]. apply balanced_round; [exact I|]. exact (even_parts ls F u U B).
Qed.
Lemma even_object : even object.
Proof. apply (even_round "{" "}" [layout; entries]); [cbn; auto|]. constructor; [apply even_layout|]. constructor; [exact (proj2 (proj2 even_nodes))|constructor]. Qed.
Lemma even_trait : even trait.
Proof.
  unfold trait. apply even_parts. apply Forall_cons; [ev|]. apply Forall_cons; [apply even_ref|]. apply Forall_cons; [|constructor].
  apply even_optional. apply (even_round "(" ")" [layout; many (parts [either entry node; layout])]); [cbn; auto|].
  ev; [apply even_entry|apply even_node].
Qed.
Lemma even_documentation : even documentation.
Proof.
  intros t (w & r & _ & (s & r' & -> & _ & ->) & ->) B. apply bare_app in B as [_ B]. no_slash B.
Qed.
Lemma even_heading : even heading.
Proof. unfold heading. ev; [apply even_documentation|apply even_trait]. Qed.
Lemma even_members : even members.
Proof.
  apply (even_round "{" "}" [layout; many (parts [member; layout])]); [cbn; auto|]. ev. unfold member. ev; [apply even_heading|apply even_ref].
Qed.
Lemma even_statement : even statement.
Proof.
  unfold statement. ev; [apply even_heading| |apply even_ref|apply even_trait].
  intros t [T|[T|T]] B; revert t T B; [|fold (even (parts [one_of_words ["list"; "set"; "map"; "structure"; "union"]; layout; short_identifier; layout; members]))|
    fold (even (parts [one_of_words ["service"; "operation"; "resource"]; layout; short_identifier; layout; object]))].
  - change (even (parts [one_of_words simple_types; layout; short_identifier])). unfold simple_types. ev.
  - ev. apply even_members.
  - ev. apply even_object.
Qed.
Lemma even_idl : even idl_language.
Proof.
  unfold idl_language, control_statement, metadata_statement, shapes_section, use_statement. ev; [apply even_node|apply even_node|apply even_absolute|apply even_statement].
Qed.
