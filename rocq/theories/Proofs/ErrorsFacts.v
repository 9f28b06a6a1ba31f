(** Facts about the texts of errors and issues. *)
From Verif.Model Require Import Errors.
From Verif.Spec Require Import ErrorsSpec.
From Verif.Proofs Require Import BaseFacts IdentityFacts.

Arguments lit : simpl never.

(** Whether one literal begins another. *)
Fixpoint begins (a b : str) : bool :=
  match a, b with
  | [], _ => true
  | x :: a', y :: b' => Ascii.eqb x y && begins a' b'
  | _, [] => false
  end.
Lemma heads_clash p q x y : begins p q = false -> begins q p = false -> p ++ x <> q ++ y.
Proof.
  revert q. induction p as [|c p IH]; intros q A B; [discriminate|]. destruct q as [|d q]; [discriminate|]. cbn in *.
  destruct (Ascii.eqb_spec c d) as [->|N]; cbn in *.
  - rewrite Ascii.eqb_refl in B. cbn in B. intros E. injection E as E. eapply IH; eauto.
  - intros E. injection E as E _. contradiction.
Qed.

(** ** Self-delimiting forms *)
Lemma sd_app {A B C} (da : A -> str) (db : B -> str) (s : str) (fa : C -> A) (fb : C -> B) :
  self_delimiting da -> self_delimiting db ->
  forall c d x y, da (fa c) ++ s ++ db (fb c) ++ x = da (fa d) ++ s ++ db (fb d) ++ y -> fa c = fa d /\ fb c = fb d /\ x = y.
Proof.
  intros SA SB c d x y E. apply SA in E as [-> E]. apply app_inv_head in E. apply SB in E as [-> ->]. auto.
Qed.

Section Debug.
  Variable debug_str : str -> str.
  Hypothesis SD : self_delimiting debug_str.

  Lemma sd_option {A} (d : A -> str) : self_delimiting d -> self_delimiting (debug_option d).
  Proof.
    intros S [a|] [b|] x y E; cbn [debug_option] in E.
    - rewrite <- !app_assoc in E. apply app_inv_head in E. apply S in E as [-> E]. apply app_inv_head in E. auto.
    - exfalso. rewrite <- !app_assoc in E. revert E. apply heads_clash; reflexivity.
    - exfalso. rewrite <- !app_assoc in E. revert E. apply heads_clash; reflexivity.
    - apply app_inv_head in E. auto.
  Qed.
  Lemma sd_wrap (p s : str) : self_delimiting (fun x => p ++ debug_str x ++ s).
  Proof.
    intros a b x y E. rewrite <- !app_assoc in E. apply app_inv_head in E. apply SD in E as [-> E].
    apply app_inv_head in E. auto.
  Qed.
  Lemma sd_identifier : self_delimiting (debug_identifier debug_str).
  Proof. apply sd_wrap. Qed.
  Lemma sd_namespace : self_delimiting (debug_namespace debug_str).
  Proof. apply sd_wrap. Qed.
  Lemma sd_id : self_delimiting (debug_id debug_str).
  Proof.
    intros [n i m] [n' i' m'] x y E. unfold debug_id in E. cbn [sid_ns sid_name sid_member] in E.
    rewrite <- !app_assoc in E. apply app_inv_head in E. apply sd_namespace in E as [-> E]. apply app_inv_head in E.
    apply sd_identifier in E as [-> E]. apply app_inv_head in E.
    apply (sd_option _ sd_identifier) in E as [-> E]. apply app_inv_head in E. auto.
  Qed.
  Lemma sd_level : self_delimiting debug_level.
  Proof.
    intros [] [] x y E; try (apply app_inv_head in E; auto); exfalso; revert E; apply heads_clash; reflexivity.
  Qed.
  Lemma sd_issue : self_delimiting (debug_issue debug_str).
  Proof.
    intros [r l m w] [r' l' m' w'] x y E. unfold debug_issue in E. cbn [i_reporter i_level i_message i_locus] in E.
    rewrite <- !app_assoc in E. apply app_inv_head in E. apply SD in E as [-> E]. apply app_inv_head in E.
    apply sd_level in E as [-> E]. apply app_inv_head in E. apply SD in E as [-> E]. apply app_inv_head in E.
    apply (sd_option _ sd_id) in E as [-> E]. apply app_inv_head in E. auto.
  Qed.
  Lemma issue_head i x : exists r, debug_issue debug_str i ++ x = "A"%char :: r.
  Proof. unfold debug_issue. eexists. reflexivity. Qed.
  Lemma sd_issues_tail l : forall l' x y,
    concat (map (fun i => lit ", " ++ debug_issue debug_str i) l) ++ lit "]" ++ x
    = concat (map (fun i => lit ", " ++ debug_issue debug_str i) l') ++ lit "]" ++ y -> l = l' /\ x = y.
  Proof.
    induction l as [|i l IH]; intros [|i' l'] x y E; cbn [map concat] in E.
    - apply (app_inv_head (lit "]")) in E. auto.
    - exfalso. rewrite <- !app_assoc in E. cbn [app] in E. revert E. apply heads_clash; reflexivity.
    - exfalso. rewrite <- !app_assoc in E. cbn [app] in E. revert E. apply heads_clash; reflexivity.
    - rewrite <- !app_assoc in E. apply app_inv_head in E. apply sd_issue in E as [-> E]. apply IH in E as [-> ->]. auto.
  Qed.
  Lemma join_concat (l : list str) a : join (lit ", ") (a :: l) = a ++ concat (map (fun i => lit ", " ++ i) l).
  Proof.
    revert a. induction l as [|b l IH]; intros a; [cbn; rewrite app_nil_r; reflexivity|].
    change (join (lit ", ") (a :: b :: l)) with (a ++ lit ", " ++ join (lit ", ") (b :: l)). rewrite IH.
    cbn [map concat]. rewrite <- !app_assoc. reflexivity.
  Qed.
  Lemma sd_issues : self_delimiting (debug_list (debug_issue debug_str)).
  Proof.
    intros l l' x y E. unfold debug_list in E. rewrite <- !app_assoc in E. apply app_inv_head in E.
    destruct l as [|i l], l' as [|i' l'].
    - cbn [map join app] in E. apply (app_inv_head (lit "]")) in E. auto.
    - exfalso. cbn [map] in E. rewrite join_concat in E. cbn [map join app] in E. rewrite <- app_assoc in E.
      destruct (issue_head i' (concat (map (fun i => lit ", " ++ i) (map (debug_issue debug_str) l')) ++ lit "]" ++ y)) as [r R].
      rewrite R in E. discriminate.
    - exfalso. cbn [map] in E. rewrite join_concat in E. cbn [map join app] in E. rewrite <- app_assoc in E.
      destruct (issue_head i (concat (map (fun i => lit ", " ++ i) (map (debug_issue debug_str) l)) ++ lit "]" ++ x)) as [r R].
      rewrite R in E. discriminate.
    - cbn [map] in E. rewrite !join_concat, !map_map, <- !app_assoc in E.
      apply sd_issue in E as [-> E]. apply sd_issues_tail in E as [-> ->]. auto.
  Qed.

  Lemma text_suffix (p s a b : str) : p ++ a ++ s = p ++ b ++ s -> a = b.
  Proof. intros E. apply app_inv_head in E. eapply app_inv_tail; eauto. Qed.
  Lemma id_suffix (p s : str) i j : valid_id i -> valid_id j -> p ++ sid_display i ++ s = p ++ sid_display j ++ s -> i = j.
  Proof. intros V W E. apply text_suffix in E. rewrite !sid_display_text in E. apply id_text_inj; assumption. Qed.

  Lemma error_display_inj a b :
    readable_error a -> readable_error b -> error_display debug_str a = error_display debug_str b -> a = b.
  Proof.
    intros A B E. destruct a, b;
      try (exfalso; revert E; apply heads_clash; reflexivity);
      cbn [error_display readable_error] in *;
      try (apply text_suffix in E; subst; reflexivity);
      try (f_equal; eapply id_suffix; eassumption).
    - destruct A as [A1 A2], B as [B1 B2]. apply app_inv_head in E.
      apply (app_sep_inj "'"%char) in E as [-> E]; [|assumption|assumption].
      apply (app_inv_head (lit " != '")) in E. apply app_inv_tail in E. subst. reflexivity.
    - f_equal. apply app_inv_head in E. apply (sd_option _ SD) in E. apply E.
    - destruct A as [A1 A2], B as [B1 B2]. apply app_inv_head in E.
      apply (app_sep_inj "'"%char) in E as [-> E]; [|assumption|assumption].
      apply (app_inv_head (lit " at location '")) in E. apply (app_sep_inj "'"%char) in E as [-> E]; [|assumption|assumption].
      apply (app_inv_head (lit " (context '")) in E. apply (sd_option _ SD) in E as [-> _]. reflexivity.
    - apply app_inv_head in E. f_equal. apply (sd_issues _ _ [] []). rewrite !app_nil_r. exact E.
  Qed.
End Debug.

(** ** Issues *)
Lemma id_no_colon i : valid_id i -> ~ In ":"%char (id_text i).
Proof.
  intros (N & I & M). unfold id_text. rewrite in_app_iff. intros [X|X].
  { revert X. apply namespace_no; [exact N|reflexivity]. }
  destruct X as [X|X]; [discriminate|]. apply in_app_iff in X as [X|X].
  { revert X. apply identifier_no; [exact I|reflexivity]. }
  destruct (sid_member i) as [m|]; [|destruct X]. destruct X as [X|X]; [discriminate|].
  revert X. apply identifier_no; [exact M|reflexivity].
Qed.

Lemma issue_display_inj a b : readable_issue a -> readable_issue b -> issue_display a = issue_display b -> a = b.
Proof.
  destruct a as [r l m w], b as [r' l' m' w']. unfold readable_issue, issue_display.
  cbn [i_reporter i_level i_message i_locus]. intros [R W] [R' W'] E.
  apply (app_sep_inj " "%char) in E as [-> E]; [|assumption|assumption].
  change ([] ++ ?x) with x in E.
  assert (l = l') as ->.
  { destruct l, l'; try reflexivity; exfalso; revert E; apply heads_clash; reflexivity. }
  apply app_inv_head in E. destruct w as [i|], w' as [j|].
  - rewrite <- !app_assoc in E. apply app_inv_head in E. rewrite !sid_display_text in E.
    apply (app_sep_inj ":"%char) in E as [EI E]; [|apply id_no_colon; assumption|apply id_no_colon; assumption].
    apply id_text_inj in EI; [|assumption|assumption]. apply (app_inv_head (lit " ")) in E. subst. reflexivity.
  - discriminate.
  - discriminate.
  - apply (app_inv_head (lit ": ")) in E. subst. reflexivity.
Qed.
