(** The derivative matcher implements the usual denotation of regular expressions. *)
From Verif.Model Require Import Regex.

Inductive denotes : regex -> str -> Prop :=
| DEps : denotes REps []
| DClass p c : p c = true -> denotes (RClass p) [c]
| DCat a b s t : denotes a s -> denotes b t -> denotes (RCat a b) (s ++ t)
| DAltL a b s : denotes a s -> denotes (RAlt a b) s
| DAltR a b s : denotes b s -> denotes (RAlt a b) s
| DStarNil a : denotes (RStar a) []
| DStarCons a s t : denotes a s -> denotes (RStar a) t -> denotes (RStar a) (s ++ t).

Lemma nullable_denotes r : nullable r = true <-> denotes r [].
Proof.
  split.
  - induction r; cbn; intros H; try discriminate.
    + constructor.
    + apply andb_true_iff in H as [H1 H2]. apply (DCat _ _ [] []); auto.
    + apply orb_true_iff in H as [H|H]; [apply DAltL|apply DAltR]; auto.
    + constructor.
  - remember [] as s eqn:E. intros H; induction H; cbn; try congruence; auto.
    + apply app_eq_nil in E as [-> ->]. rewrite IHdenotes1, IHdenotes2; auto.
    + rewrite IHdenotes; auto.
    + rewrite IHdenotes; auto using orb_true_r.
Qed.

Lemma deriv_sound c r s : denotes (deriv c r) s -> denotes r (c :: s).
Proof.
  revert s; induction r as [| |p|a IHa b IHb|a IHa b IHb|a IHa]; cbn; intros s H.
  - inversion H.
  - inversion H.
  - destruct (p c) eqn:E; inversion H; subst. constructor; assumption.
  - destruct (nullable a) eqn:N.
    + inversion H; subst.
      * inversion H3; subst. change (c :: s0 ++ t) with ((c :: s0) ++ t). constructor; auto.
      * change (c :: s) with ([] ++ c :: s). constructor; [apply nullable_denotes; assumption|auto].
    + inversion H; subst. change (c :: s0 ++ t) with ((c :: s0) ++ t). constructor; auto.
  - inversion H; subst; [apply DAltL|apply DAltR]; auto.
  - inversion H; subst. change (c :: s0 ++ t) with ((c :: s0) ++ t). constructor; auto.
Qed.

Lemma deriv_complete r s : denotes r s -> forall c s', s = c :: s' -> denotes (deriv c r) s'.
Proof.
  intros H; induction H; intros c0 s' E; cbn.
  - discriminate.
  - inversion E; subst. rewrite H. constructor.
  - destruct s as [|x s].
    + cbn in E. apply nullable_denotes in H. rewrite H. apply DAltR. auto.
    + inversion E; subst. destruct (nullable a); [apply DAltL|]; constructor; auto.
  - apply DAltL; auto.
  - apply DAltR; auto.
  - discriminate.
  - destruct s as [|x s].
    + exact (IHdenotes2 _ _ E).
    + inversion E; subst. constructor; auto.
Qed.

Theorem rmatch_denotes r s : rmatch r s = true <-> denotes r s.
Proof.
  revert r; induction s as [|c s IH]; intros r; cbn.
  - apply nullable_denotes.
  - rewrite IH. split; [apply deriv_sound|]. intros H. eapply deriv_complete; eauto.
Qed.

(** Inversion principles as equivalences. *)
Lemma denotes_eps s : denotes REps s <-> s = [].
Proof. split; [inversion 1; reflexivity | intros ->; constructor]. Qed.
Lemma denotes_class p s : denotes (RClass p) s <-> exists c, s = [c] /\ p c = true.
Proof. split; [inversion 1; subst; eauto | intros (c & -> & H); constructor; assumption]. Qed.
Lemma denotes_char x s : denotes (rchar x) s <-> s = [x].
Proof.
  unfold rchar; rewrite denotes_class. split.
  - intros (c & -> & H). apply Ascii.eqb_eq in H; subst; reflexivity.
  - intros ->; exists x; split; [reflexivity|apply Ascii.eqb_refl].
Qed.
Lemma denotes_cat a b s : denotes (RCat a b) s <-> exists u v, s = u ++ v /\ denotes a u /\ denotes b v.
Proof. split; [inversion 1; subst; eauto | intros (u & v & -> & H1 & H2); constructor; assumption]. Qed.
Lemma denotes_alt a b s : denotes (RAlt a b) s <-> denotes a s \/ denotes b s.
Proof. split; [inversion 1; subst; auto | intros [H|H]; [apply DAltL|apply DAltR]; assumption]. Qed.
Lemma denotes_star_class p s : denotes (RStar (RClass p)) s <-> Forall (fun c => p c = true) s.
Proof.
  split.
  - remember (RStar (RClass p)) as r eqn:E. intros H; induction H; inversion E; subst; [constructor|].
    apply denotes_class in H as (c & -> & Hc). constructor; auto.
  - induction 1; [constructor|]. change (x :: l) with ([x] ++ l). constructor; [constructor; assumption|assumption].
Qed.
Lemma denotes_star_list a s : denotes (RStar a) s <-> exists l, s = concat l /\ Forall (denotes a) l.
Proof.
  split.
  - remember (RStar a) as r eqn:E. intros H; induction H; inversion E; subst.
    + exists []; split; [reflexivity|constructor].
    + destruct (IHdenotes2 eq_refl) as (l & -> & Hl). exists (s :: l); split; [reflexivity|constructor; assumption].
  - intros (l & -> & H). induction H; cbn; constructor; assumption.
Qed.
Lemma denotes_star_star a s : denotes (RStar (RStar a)) s <-> denotes (RStar a) s.
Proof.
  split.
  - rewrite denotes_star_list. intros (l & -> & H). induction H as [|x l Hx Hl IH]; cbn; [constructor|].
    clear Hl. rewrite denotes_star_list in Hx, IH. destruct Hx as (l1 & -> & H1), IH as (l2 & E & H2).
    rewrite denotes_star_list. rewrite E. exists (l1 ++ l2). split; [rewrite concat_app; reflexivity|apply Forall_app; auto].
  - intros H. rewrite <- (app_nil_r s). constructor; [assumption|constructor].
Qed.

(** ** Submatch extraction *)
Lemma split_match_from_sound a b pre rest u v :
  split_match_from a b pre rest = Some (u, v) ->
  pre ++ rest = u ++ v /\ denotes a u /\ denotes b v.
Proof.
  revert pre; induction rest as [|c rest IH]; cbn; intros pre.
  - destruct (rmatch a pre && nullable b) eqn:E; [|congruence].
    intros H; inversion H; subst. apply andb_true_iff in E as [E1 E2].
    split; [reflexivity|]. split; [apply rmatch_denotes; assumption|apply nullable_denotes; assumption].
  - destruct (split_match_from a b (pre ++ [c]) rest) as [[u' v']|] eqn:E1.
    + intros H; inversion H; subst. apply IH in E1 as (E & H1 & H2). rewrite <- app_assoc in E. auto.
    + destruct (rmatch a pre && rmatch (deriv c b) rest) eqn:E; [|congruence].
      intros H; inversion H; subst. apply andb_true_iff in E as [E2 E3].
      split; [reflexivity|]. split; [apply rmatch_denotes; assumption|].
      apply (proj1 (rmatch_denotes b (c :: rest))). exact E3.
Qed.
Lemma split_match_sound a b s u v :
  split_match a b s = Some (u, v) -> s = u ++ v /\ denotes a u /\ denotes b v.
Proof. apply split_match_from_sound. Qed.

Lemma split_match_from_complete a b pre rest w v :
  rest = w ++ v -> denotes a (pre ++ w) -> denotes b v -> split_match_from a b pre rest <> None.
Proof.
  revert pre w; induction rest as [|c rest IH]; cbn; intros pre w E Ha Hb.
  - symmetry in E; apply app_eq_nil in E as [-> ->]. rewrite app_nil_r in Ha.
    rewrite (proj2 (rmatch_denotes _ _) Ha). rewrite (proj2 (nullable_denotes _) Hb). discriminate.
  - destruct (split_match_from a b (pre ++ [c]) rest) eqn:E1; [discriminate|].
    destruct w as [|x w]; cbn in E.
    + subst v. rewrite app_nil_r in Ha. rewrite (proj2 (rmatch_denotes _ _) Ha).
      rewrite (proj2 (rmatch_denotes b (c :: rest)) Hb : rmatch (deriv c b) rest = true). discriminate.
    + inversion E; subst. exfalso. eapply (IH (pre ++ [x]) w); eauto.
      rewrite <- app_assoc. exact Ha.
Qed.
Lemma split_match_complete a b u v :
  denotes a u -> denotes b v -> exists u' v', split_match a b (u ++ v) = Some (u', v').
Proof.
  intros Ha Hb. unfold split_match. destruct (split_match_from a b [] (u ++ v)) as [[u' v']|] eqn:E; [eauto|].
  exfalso. eapply (split_match_from_complete a b [] (u ++ v) u v); eauto.
Qed.
