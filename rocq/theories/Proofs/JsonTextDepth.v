(** JSON text: how deep it is nested. *)
From Coq Require Import Lia Sorted.
From Verif.Model Require Import JsonText.
From Verif.Spec Require Import IoSpec JsonSpec JsonTextSpec.
From Verif.Proofs Require Import BaseFacts JsonFacts JsonTextFacts JsonTextValues JsonTextWrite.

Section Depth.
  Variables (f64_parse : str -> option Z) (f64_text : Z -> str).
  Notation says := (says f64_parse).
  Notation printable := (printable f64_parse f64_text).

  Lemma says_deep : forall n t j, says n t j -> depth j <= n.
  Proof.
    apply (says_mut f64_parse
      (fun n t j _ => depth j <= n)
      (fun n t l _ => Forall (fun j => depth j <= n) l)
      (fun n t l _ => Forall (fun kv => depth (snd kv) <= n) l)); intros; cbn [depth map list_max fold_right]; try lia; try (constructor; assumption || constructor).
    - match goal with X : number_says _ _ _ |- _ => inversion X; subst; cbn [depth]; lia end.
    - apply le_n_S, list_max_le, Forall_map. assumption.
    - apply le_n_S, list_max_le, Forall_map, Forall_forall. intros [k x] I. destruct l as [_ L]. apply L in I as (b & a & -> & _).
      match goal with F : Forall _ _ |- _ => apply Forall_app in F as [_ F]; inversion F; assumption end.
  Qed.
  Lemma says_mono : forall n t j, says n t j -> forall k, n <= k -> says k t j.
  Proof.
    apply (says_mut f64_parse
      (fun n t j _ => forall k, n <= k -> says k t j)
      (fun n t l _ => forall k, n <= k -> elements f64_parse k t l)
      (fun n t l _ => forall k, n <= k -> members f64_parse k t l)); intros; try (destruct k; [lia|]); try (econstructor; eauto with arith; fail).
  Qed.
  Lemma says_one_meaning n n' t j j' : says n t j -> says n' t j' -> j = j'.
  Proof.
    intros A B. apply (fun x => says_mono _ _ _ x (Nat.max n n')) in A; [|lia]. apply (fun x => says_mono _ _ _ x (Nat.max n n')) in B; [|lia].
    assert (A' := complete f64_parse _ _ _ A [] ends_nil). assert (B' := complete f64_parse _ _ _ B [] ends_nil). congruence.
  Qed.
  Lemma printable_deep : forall n j k, printable n j -> depth j <= k -> printable k j.
  Proof.
    induction n as [|n IH]; intros j k P D; inversion P; subst; try (constructor; assumption); cbn [depth] in D; (destruct k; [lia|]); constructor; try assumption.
    - apply le_S_n, list_max_le in D. rewrite Forall_map in D. rewrite Forall_forall in *. auto.
    - apply le_S_n, list_max_le in D. rewrite Forall_map in D. rewrite Forall_forall in *. intros x I.
      match goal with F : forall x, _ -> _ /\ _ |- _ => destruct (F x I) end. auto.
  Qed.
  Lemma text_too_deep n pretty_print j : printable n j -> deepest < depth j -> json_from_text f64_parse (json_text f64_text pretty_print j) = None.
  Proof.
    intros P D. destruct (json_from_text f64_parse _) as [j'|] eqn:E; [|reflexivity]. exfalso. apply document_exact in E as (w & t & w' & E & B & B' & S).
    assert (Q : says n (json_text f64_text pretty_print j) j) by (destruct pretty_print; [apply pretty_says, P|apply compact_says, P]).
    assert (C := complete f64_parse _ _ _ (says_mono _ _ _ Q (Nat.max n deepest) ltac:(lia)) [] ends_nil).
    rewrite app_nil_r, E, read_value_blank in C by exact B.
    assert (Z : number_ends w') by (rewrite <- (app_nil_r w'); apply (ends_blank f64_parse); [exact B'|apply ends_nil]).
    rewrite (complete f64_parse _ _ _ (says_mono _ _ _ S (Nat.max n deepest) ltac:(lia)) w' Z) in C. injection C as -> _.
    apply says_deep in S. lia.
  Qed.
End Depth.
