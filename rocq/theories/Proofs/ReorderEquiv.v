(** Being the same up to the order of maps is an equivalence. *)
From Verif.Model Require Import SemModel.
From Verif.Spec Require Import ModelSpec ReorderSpec.
From Verif.Proofs Require Import BaseFacts IdentityFacts HashMapFacts ValueFacts ShapeFacts ReorderFacts.

Lemma Forall2_flip {A B} (R : A -> B -> Prop) a b : Forall2 R a b -> Forall2 (fun y x => R x y) b a.
Proof. induction 1; constructor; auto. Qed.
Lemma reordered_sym_in {K V} (R S : V -> V -> Prop) (a b : list (K * V)) :
  (forall k x y, In (k, x) a -> R x y -> S y x) -> reordered R a b -> reordered S b a.
Proof.
  intros I (a' & P & F).
  assert (F' : Forall2 (fun y x => fst y = fst x /\ S (snd y) (snd x)) b a').
  { assert (Sub : forall e, In e a' -> In e a) by (intros e; apply Permutation_in; symmetry; exact P).
    clear P. induction F as [|[k x] [k' y] a' b [E Rv] F IH]; [constructor|]. cbn in E, Rv. subst k'. constructor.
    - split; [reflexivity|]. cbn. apply (I k); [apply Sub; left; reflexivity|exact Rv].
    - apply IH. intros e Ie. apply Sub. right. exact Ie. }
  apply Forall2_flip in F'. symmetry in P. destruct (perm_forall2 _ _ _ _ P F') as (b' & Pb & Fb).
  exists b'. split; [exact Pb|]. apply Forall2_flip in Fb. exact Fb.
Qed.
Lemma reordered_trans_in {K V} (R S T : V -> V -> Prop) (a b c : list (K * V)) :
  (forall k x y z, In (k, x) a -> R x y -> S y z -> T x z) -> reordered R a b -> reordered S b c -> reordered T a c.
Proof.
  intros I (a' & P & F) (b' & Q & G).
  apply Forall2_flip in F. destruct (perm_forall2 _ _ _ _ Q F) as (a'' & Pa & Fa). apply Forall2_flip in Fa.
  assert (P' : Permutation a a'') by (rewrite P; exact Pa). exists a''. split; [exact P'|].
  assert (Sub : forall e, In e a'' -> In e a) by (intros e; apply Permutation_in; symmetry; exact P').
  clear P' Pa P F Q a'. revert c G Sub. induction Fa as [|[k x] [k' y] a'' b' [E Rv] Fa IH]; intros c G Sub.
  - inversion G; subst. constructor.
  - inversion G as [|? [k'' z] ? c' [E' Sv] G']; subst. cbn in *. subst. constructor.
    + split; [reflexivity|]. cbn. apply (I k'' x y z); auto.
    + apply IH; [exact G'|]. intros e Ie. apply Sub. right. exact Ie.
Qed.

Lemma rv_object_reordered l r : reordered reorder_value l r -> reorder_value (VObject l) (VObject r).
Proof. intros (l' & P & F). apply (rv_object l l' r P F). Qed.
Lemma reorder_value_sym v : forall w, reorder_value v w -> reorder_value w v.
Proof.
  induction v as [l IH|l IH| | | |] using value_ind'; intros w R; inversion R as [? r F E1 E2|? l' r P F E1 E2|? E1 E2]; subst; try apply rv_same.
  - apply rv_array. clear R. induction F as [|x y l r Rv F IHF]; [constructor|]. inversion IH; subst. constructor; auto.
  - apply rv_object_reordered. apply (reordered_sym_in reorder_value); [|exists l'; auto].
    intros k x y I Rv. rewrite Forall_forall in IH. apply (IH _ I _ Rv).
Qed.
Lemma reorder_value_trans v : forall w u, reorder_value v w -> reorder_value w u -> reorder_value v u.
Proof.
  induction v as [l IH|l IH| | | |] using value_ind'; intros w u R S; inversion R as [? r F E1 E2|? l' r P F E1 E2|? E1 E2]; subst; try exact S.
  - inversion S as [? r' F' E1 E2|? ? ? ? ? E1 E2|? E1 E2]; subst; [|exact R]. apply rv_array. clear R S. revert r' F'.
    induction F as [|x y l r Rv F IHF]; intros r' F'; inversion F'; subst; [constructor|]. inversion IH; subst. constructor; eauto.
  - inversion S as [? ? ? E1 E2|? m' r' P' F' E1 E2|? E1 E2]; subst; [|exact R]. apply rv_object_reordered.
    apply (reordered_trans_in reorder_value reorder_value _ l r r'); [|exists l'; auto|exists m'; auto].
    intros k x y z I A B. rewrite Forall_forall in IH. apply (IH _ I y z A B).
Qed.

Lemma opt_rel_sym {A} (R S : A -> A -> Prop) a b : (forall x y, R x y -> S y x) -> opt_rel R a b -> opt_rel S b a.
Proof. intros I. destruct a, b; cbn; auto. Qed.
Lemma opt_rel_trans {A} (R : A -> A -> Prop) a b c : (forall x y z, R x y -> R y z -> R x z) -> opt_rel R a b -> opt_rel R b c -> opt_rel R a c.
Proof. intros I. destruct a, b, c; cbn; try tauto; eauto. Qed.
Lemma reorder_traits_sym a b : reorder_traits a b -> reorder_traits b a.
Proof.
  apply reordered_sym_in. intros _ x y _. apply opt_rel_sym, reorder_value_sym.
Qed.
Lemma reorder_traits_trans a b c : reorder_traits a b -> reorder_traits b c -> reorder_traits a c.
Proof. apply reordered_trans_in. intros _ x y z _. apply opt_rel_trans. intros u v w. apply reorder_value_trans. Qed.
Lemma reorder_member_sym a b : reorder_member a b -> reorder_member b a.
Proof. intros (A & B & C). split; [auto|]. split; [auto|]. apply reorder_traits_sym, C. Qed.
Lemma reorder_member_trans a b c : reorder_member a b -> reorder_member b c -> reorder_member a c.
Proof.
  intros (A & B & C) (A' & B' & C'). split; [congruence|]. split; [congruence|]. eapply reorder_traits_trans; eassumption.
Qed.
Lemma reorder_service_sym a b : reorder_service a b -> reorder_service b a.
Proof. intros (A & B & C & D). repeat split; try congruence. symmetry. exact D. Qed.
Lemma reorder_service_trans a b c : reorder_service a b -> reorder_service b c -> reorder_service a c.
Proof. intros (A & B & C & D) (A' & B' & C' & D'). repeat split; try congruence. rewrite D. exact D'. Qed.
Lemma reorder_resource_sym a b : reorder_resource a b -> reorder_resource b a.
Proof. intros (A & B). split; [symmetry; exact A|]. intuition congruence. Qed.
Lemma reorder_resource_trans a b c : reorder_resource a b -> reorder_resource b c -> reorder_resource a c.
Proof. intros (A & B) (A' & B'). split; [rewrite A; exact A'|]. intuition congruence. Qed.
Lemma reorder_body_sym a b : reorder_body a b -> reorder_body b a.
Proof.
  intros []; constructor; auto using reorder_member_sym, reorder_service_sym, reorder_resource_sym;
    (eapply reordered_sym_in; [|eassumption]); intros ? ? ? _; apply reorder_member_sym.
Qed.
Lemma reorder_body_trans a b c : reorder_body a b -> reorder_body b c -> reorder_body a c.
Proof.
  intros A B. destruct A; try exact B; inversion B; subst; try (constructor; assumption); constructor;
    eauto using reorder_member_trans, reorder_service_trans, reorder_resource_trans;
    (eapply reordered_trans_in; [|eassumption|eassumption]); intros ? ? ? ? _; apply reorder_member_trans.
Qed.
Lemma reorder_shape_sym a b : reorder_shape a b -> reorder_shape b a.
Proof. intros (A & B & C). split; [auto|]. split; [apply reorder_traits_sym, B|apply reorder_body_sym, C]. Qed.
Lemma reorder_shape_trans a b c : reorder_shape a b -> reorder_shape b c -> reorder_shape a c.
Proof.
  intros (A & B & C) (A' & B' & C'). split; [congruence|]. split; [eapply reorder_traits_trans; eassumption|eapply reorder_body_trans; eassumption].
Qed.
Lemma reorder_shape_refl s : reorder_shape s s.
Proof. split; [reflexivity|]. split; [apply reorder_traits_refl|apply rb_same]. Qed.
Lemma reorder_model_sym a b : reorder_model a b -> reorder_model b a.
Proof.
  intros (A & B & C). split; [auto|]. split; (eapply reordered_sym_in; [|eassumption]); intros ? ? ? _; [apply reorder_value_sym|apply reorder_shape_sym].
Qed.
Lemma reorder_model_trans a b c : reorder_model a b -> reorder_model b c -> reorder_model a c.
Proof.
  intros (A & B & C) (A' & B' & C'). split; [congruence|]. split; (eapply reordered_trans_in; [|eassumption|eassumption]); intros ? ? ? ? _;
    [apply reorder_value_trans|apply reorder_shape_trans].
Qed.
Lemma reorder_model_refl a : reorder_model a a.
Proof. split; [reflexivity|]. split; apply reordered_refl; [constructor|apply reorder_shape_refl]. Qed.
