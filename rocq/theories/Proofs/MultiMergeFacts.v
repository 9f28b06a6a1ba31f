(** Merging a list of models. *)
From Coq Require Import Sorting.Permutation.
From Verif.Model Require Import Assembler.
From Verif.Spec Require Import AssemblerSpec.
From Verif.Proofs Require Import BaseFacts HashMapFacts ValueFacts ShapeFacts ModelFacts MergeFacts.

(** ** Lists *)
Lemma FOP_snoc {A} (R : A -> A -> Prop) l x :
  ForallOrdPairs R (l ++ [x]) <-> ForallOrdPairs R l /\ Forall (fun a => R a x) l.
Proof.
  induction l as [|a l IH]; cbn.
  - split; [intros _; split; constructor|intros _; repeat constructor].
  - split.
    + intros F. inversion F; subst. apply IH in H2 as [P Q]. apply Forall_app in H1 as [H1 H3]. inversion H3; subst.
      split; constructor; auto.
    + intros [F G]. inversion F; subst. inversion G; subst. constructor; [|apply IH; auto].
      apply Forall_app. split; auto.
Qed.
Lemma FOP_In {A} (R : A -> A -> Prop) l : ForallOrdPairs R l -> forall x y, In x l -> In y l -> x = y \/ R x y \/ R y x.
Proof. intros F x y I J. destruct (ForallOrdPairs_In F _ _ I J) as [E|E]; auto. Qed.
Lemma FOP_perm {A} (P : A -> Prop) (R : A -> A -> Prop) l l' :
  (forall a b, P a -> P b -> R a b -> R b a) -> Permutation l l' -> Forall P l -> ForallOrdPairs R l -> ForallOrdPairs R l'.
Proof.
  intros S Q. induction Q; intros F G.
  - exact G.
  - inversion F; subst. inversion G; subst. constructor; [|auto]. eapply Permutation_Forall; eauto.
  - inversion F as [|? ? Py F']; subst. inversion F' as [|? ? Px F'']; subst.
    inversion G as [|? ? Gy G']; subst. inversion G' as [|? ? Gx G'']; subst. inversion Gy; subst.
    constructor; [constructor; auto|]. constructor; auto.
  - apply IHQ2; auto. eapply Permutation_Forall; eauto.
Qed.
Lemma somes_snoc {A B} (f : A -> option B) l o :
  somes (map f (l ++ [o])) = somes (map f l) ++ match f o with Some y => [y] | None => [] end.
Proof. induction l as [|a l IH]; cbn; [destruct (f o); reflexivity|]. destruct (f a); cbn; rewrite IH; reflexivity. Qed.
Lemma somes_In {A B} (f : A -> option B) l y : In y (somes (map f l)) <-> exists a, In a l /\ f a = Some y.
Proof.
  induction l as [|a l IH]; cbn; [split; [tauto|intros (a & [] & _)]|].
  destruct (f a) as [q|] eqn:E; cbn; rewrite IH; split.
  - intros [->|(b & I & F)]; eauto.
  - intros (b & [->|I] & F); [left; congruence|right; eauto].
  - intros (b & I & F); eauto.
  - intros (b & [->|I] & F); [congruence|eauto].
Qed.
Lemma somes_perm {A B} (f : A -> option B) l l' : Permutation l l' -> Permutation (somes (map f l)) (somes (map f l')).
Proof.
  intros Q. induction Q; cbn; auto.
  - destruct (f x); auto.
  - destruct (f x), (f y); auto. constructor.
  - eapply perm_trans; eauto.
Qed.
Lemma FOP_somes {A B} (f : A -> option B) (R : A -> A -> Prop) (R' : B -> B -> Prop) l :
  (forall a b x y, R a b -> f a = Some x -> f b = Some y -> R' x y) ->
  ForallOrdPairs R l -> ForallOrdPairs R' (somes (map f l)).
Proof.
  intros S F. induction F as [|a l H F IH]; cbn; [constructor|]. destruct (f a) eqn:E; [|exact IH].
  constructor; [|exact IH]. apply Forall_forall. intros y I. apply somes_In in I as (b0 & I & E').
  rewrite Forall_forall in H. eauto.
Qed.

(** ** Values *)
Lemma same_float_trans a b c : same_float a b -> same_float b c -> same_float a c.
Proof. unfold same_float. intros (A1 & A2 & A3) (B1 & B2 & B3). repeat split; auto. destruct A3 as [->|[]], B3 as [->|[]]; auto. Qed.
Lemma same_value_trans a : forall b c, same_value a b -> same_value b c -> same_value a c.
Proof.
  induction a as [l IH|m IH|n|x|s|] using value_ind'; intros b c A B; inversion A; subst; inversion B; subst; try constructor;
    try (eapply same_float_trans; eauto).
  - rename r into r1, r0 into r2. match goal with h : Forall2 _ l r1 |- _ => rename h into F1 end.
    match goal with h : Forall2 _ r1 r2 |- _ => rename h into F2 end. clear A B.
    revert r2 F2. induction F1 as [|x y l r1 X F1 IHF]; intros r2 F2; inversion F2; subst; constructor; inversion IH; subst; eauto.
  - intros k. etransitivity; eauto.
  - intros k v w E1 E2. destruct (lookup k r) as [u|] eqn:E.
    + assert (I := E1). apply hm_get_Some_In in I as (k' & I & _). rewrite Forall_forall in IH. eapply (IH _ I); eauto.
    + exfalso. match goal with h : forall k, lookup k m = None <-> _ |- _ => apply h in E end. congruence.
Qed.

Definition combinable (x y : value) : Prop := exists z, combine_value x y z.
Lemma same_array a b : same_value a b -> (is_array_value a <-> is_array_value b).
Proof. unfold is_array_value. intros S. inversion S; subst; split; intros [q E]; try discriminate; eauto. Qed.
Lemma is_array_dec v : is_array_value v \/ ~ is_array_value v.
Proof. unfold is_array_value. destruct v; eauto; right; intros [? ?]; discriminate. Qed.
Lemma combinable_array x y : is_array_value x -> (combinable x y <-> is_array_value y).
Proof.
  intros A. split.
  - intros [z C]. inversion C as [p q|p q N S]; subst; [exists q; reflexivity|]. apply (same_array _ _ S), A.
  - intros B. destruct A as [p ->], B as [q ->]. eexists. constructor.
Qed.
Lemma combinable_plain x y : ~ is_array_value x -> (combinable x y <-> same_value x y).
Proof.
  intros A. split.
  - intros [z C]. inversion C; subst; [exfalso; apply A; eexists; reflexivity|assumption].
  - intros S. exists x. apply cv_equal; tauto.
Qed.
Lemma all_arrays_app a b : all_arrays (a ++ b) =
  match all_arrays a, all_arrays b with Some x, Some y => Some (x ++ y) | _, _ => None end.
Proof.
  induction a as [|v a IH]; cbn; [destruct (all_arrays b); reflexivity|].
  destruct v; try reflexivity. rewrite IH. destruct (all_arrays a), (all_arrays b); try reflexivity. rewrite app_assoc. reflexivity.
Qed.
Lemma all_arrays_some vs : Forall is_array_value vs -> exists l, all_arrays vs = Some l.
Proof. induction 1 as [|v vs [l ->] F [l' IH]]; cbn; [eauto|]. rewrite IH. eauto. Qed.
Lemma all_arrays_plain v vs : ~ is_array_value v -> all_arrays (v :: vs) = None.
Proof. intros N. destruct v; try reflexivity. destruct N. eexists; reflexivity. Qed.

(** The two ways in which values can be pairwise combinable. *)
Lemma combinable_list v vs :
  ForallOrdPairs combinable (v :: vs) ->
  (Forall is_array_value (v :: vs) /\ exists l, combined (v :: vs) = Some (VArray l))
  \/ (~ is_array_value v /\ Forall (same_value v) vs /\ combined (v :: vs) = Some v).
Proof.
  intros F. inversion F as [|? ? G _]; subst. destruct (is_array_dec v) as [A|N].
  - left. assert (Fa : Forall is_array_value (v :: vs)).
    { constructor; [exact A|]. revert G. apply Forall_impl. intros y. apply combinable_array, A. }
    split; [exact Fa|]. destruct (all_arrays_some _ Fa) as [l E]. exists l. unfold combined. rewrite E. reflexivity.
  - right. split; [exact N|]. split; [revert G; apply Forall_impl; intros y; apply combinable_plain, N|].
    unfold combined. rewrite all_arrays_plain by exact N. reflexivity.
Qed.
Lemma combined_combinable vs x y :
  Forall value_ok vs -> value_ok y -> ForallOrdPairs combinable vs -> combined vs = Some x ->
  (combinable x y <-> Forall (fun v => combinable v y) vs).
Proof.
  intros W Wy F C. destruct vs as [|v vs]; [discriminate|].
  destruct (combinable_list v vs F) as [[Fa [l E]]|(N & S & E)]; rewrite E in C; injection C as <-.
  - rewrite (combinable_array (VArray l) y) by (eexists; reflexivity). split.
    + intros A. revert Fa. apply Forall_impl. intros z B. apply combinable_array; assumption.
    + intros G. inversion G; subst. inversion Fa; subst. eapply combinable_array; eauto.
  - rewrite combinable_plain by exact N. split.
    + intros Sv. constructor; [apply combinable_plain; assumption|]. inversion W as [|? ? Wv Wvs]; subst.
      rewrite Forall_forall in *. intros z I. assert (Sz := S z I). apply combinable_plain.
      * rewrite <- (same_array v z Sz). exact N.
      * eapply same_value_trans; [|exact Sv]. apply same_value_sym; auto.
    + intros G. inversion G; subst. apply combinable_plain; assumption.
Qed.
Lemma combined_snoc vs x y z :
  ForallOrdPairs combinable vs -> combined vs = Some x -> combine_value x y z -> combined (vs ++ [y]) = Some z.
Proof.
  intros F C V. destruct vs as [|v vs]; [discriminate|].
  destruct (combinable_list v vs F) as [[Fa [l E]]|(N & S & E)]; rewrite E in C; injection C as <-.
  - assert (A : is_array_value y). { apply (combinable_array (VArray l)); [eexists; reflexivity|]. exists z. exact V. }
    destruct A as [q ->]. inversion V as [? ? E1 E2|? ? NB _ E1]; subst; [|exfalso; apply NB; split; eexists; reflexivity].
    destruct (all_arrays_some _ Fa) as [l' E']. unfold combined in *. rewrite E' in E. injection E as ->.
    cbn [app]. change (v :: vs ++ [VArray q]) with ((v :: vs) ++ [VArray q]). rewrite all_arrays_app, E'. cbn.
    rewrite app_nil_r. reflexivity.
  - assert (z = v). { inversion V; subst; [|reflexivity]. destruct N. eexists; reflexivity. } subst z.
    unfold combined. cbn [app]. rewrite all_arrays_plain by exact N. reflexivity.
Qed.
Lemma combined_ok vs x : Forall value_ok vs -> combined vs = Some x -> value_ok x.
Proof.
  intros W. destruct vs as [|v vs]; [discriminate|]. unfold combined.
  destruct (all_arrays (v :: vs)) as [l|] eqn:E; intros [= <-]; [|inversion W; assumption].
  constructor. revert l E. induction W as [|u us Wu W IH]; cbn; intros l E; [injection E as <-; constructor|].
  destruct u; try discriminate. destruct (all_arrays us) as [l'|]; [|discriminate]. injection E as <-.
  apply Forall_app. split; [inversion Wu; assumption|auto].
Qed.
(** Without two arrays, the order does not matter. *)
Lemma combined_perm vs vs' :
  Permutation vs vs' -> Forall value_ok vs -> ForallOrdPairs combinable vs ->
  ForallOrdPairs (fun x y => ~ (is_array_value x /\ is_array_value y)) vs ->
  opt_rel (eq_or same_value) (combined vs) (combined vs').
Proof.
  intros Q W F N. destruct vs as [|v vs]; [apply Permutation_nil in Q as ->; exact I|].
  destruct vs' as [|v' vs']; [symmetry in Q; apply Permutation_nil in Q; discriminate|].
  assert (F' : ForallOrdPairs combinable (v' :: vs')).
  { eapply (FOP_perm value_ok); [|exact Q|exact W|exact F]. intros a b Wa Wb [z C]. eapply combine_value_sym; [| |exact C]; auto. }
  destruct (combinable_list v vs F) as [[Fa _]|(Nv & S & ->)].
  - assert (vs = []).
    { inversion N as [|? ? G _]; subst. inversion Fa as [|? ? A B]; subst. destruct vs as [|u us]; [reflexivity|].
      inversion G; subst. inversion B; subst. tauto. }
    subst vs. apply Permutation_length_1_inv in Q. injection Q as -> ->. cbn.
    destruct (match v with VArray l => _ | _ => _ end); left; reflexivity.
  - assert (I : In v' (v :: vs)) by (eapply Permutation_in; [symmetry; exact Q|now left]).
    assert (Sv : v' = v \/ same_value v v'). { destruct I as [->|I]; [auto|]. right. rewrite Forall_forall in S. auto. }
    destruct (combinable_list v' vs' F') as [[Fa _]|(Nv' & _ & ->)].
    + exfalso. apply Nv. rewrite Forall_forall in Fa. apply Fa. eapply Permutation_in; [exact Q|now left].
    + cbn. destruct Sv as [->|Sv]; [left; reflexivity|right; exact Sv].
Qed.

(** ** Traits *)
Definition trait_combinable (x y : option value) : Prop := exists z, combine_trait x y z.
Lemma trait_comb_iff x y : trait_combinable x y <-> opt_rel combinable x y.
Proof.
  unfold trait_combinable, combinable. split.
  - intros [z C]. inversion C; subst; cbn; eauto.
  - destruct x, y; cbn; try tauto; [intros [z C]; exists (Some z); constructor; exact C|intros _; exists None; constructor].
Qed.
Lemma trait_list v vs :
  ForallOrdPairs trait_combinable (v :: vs) ->
  (v = None /\ Forall (fun x => x = None) vs)
  \/ (Forall (fun x => x <> None) (v :: vs) /\ v :: vs = map Some (somes (v :: vs)) /\ ForallOrdPairs combinable (somes (v :: vs))).
Proof.
  intros F. inversion F as [|? ? G H]; subst. destruct v as [v|].
  - right. assert (NN : Forall (fun x => x <> None) (Some v :: vs)).
    { constructor; [discriminate|]. revert G. apply Forall_impl. intros x C. apply trait_comb_iff in C. destruct x; [discriminate|destruct C]. }
    split; [exact NN|]. split.
    + clear - NN. induction NN as [|x l Hx NN IH]; [reflexivity|]. destruct x; [|congruence]. cbn in *. f_equal. exact IH.
    + rewrite <- (map_id (Some v :: vs)). eapply FOP_somes; [|exact F].
      intros a b x y C Ea Eb. cbn in *. subst. apply trait_comb_iff in C. exact C.
  - left. split; [reflexivity|]. revert G. apply Forall_impl. intros x C. apply trait_comb_iff in C. destruct x; [destruct C|reflexivity].
Qed.
Lemma somes_map_Some {A} (l : list A) : somes (map Some l) = l.
Proof. induction l; cbn; congruence. Qed.
Lemma tv_somes vs : Forall tv_ok vs -> Forall value_ok (somes vs).
Proof. induction 1 as [|[v|] vs H F IH]; cbn; auto. Qed.
Lemma combined_trait_combinable vs x y :
  Forall tv_ok vs -> tv_ok y -> ForallOrdPairs trait_combinable vs -> combined_trait vs = Some x ->
  (trait_combinable x y <-> Forall (fun v => trait_combinable v y) vs).
Proof.
  intros W Wy F C. destruct vs as [|v vs]; [discriminate|].
  destruct (trait_list v vs F) as [[-> N]|(NN & M & G)].
  - cbn in C. injection C as <-. split.
    + intros T. constructor; [exact T|]. revert N. apply Forall_impl. intros ? ->. exact T.
    + intros T. inversion T; subst; assumption.
  - destruct v as [v|]; [|inversion NN; congruence].
    assert (C' : exists c, combined (somes (Some v :: vs)) = Some c /\ x = Some c).
    { unfold combined_trait in C. cbn [somes] in *. destruct (combined (v :: somes vs)) as [c|] eqn:E.
      - injection C as <-. eauto.
      - unfold combined in E. destruct (all_arrays _); discriminate. }
    destruct C' as (c & E & ->). destruct y as [y|].
    + rewrite trait_comb_iff. cbn [opt_rel]. rewrite (combined_combinable _ _ y (tv_somes _ W) Wy G E).
      rewrite M at 2. rewrite Forall_map. split; apply Forall_impl; intros a; rewrite trait_comb_iff; auto.
    + rewrite trait_comb_iff. cbn. split; [tauto|]. intros T. inversion T as [|? ? T1 _]; subst. apply trait_comb_iff in T1. exact T1.
Qed.
Lemma combined_trait_snoc vs x y z :
  ForallOrdPairs trait_combinable vs -> combined_trait vs = Some x -> combine_trait x y z -> combined_trait (vs ++ [y]) = Some z.
Proof.
  intros F C V. destruct vs as [|v vs]; [discriminate|].
  destruct (trait_list v vs F) as [[-> N]|(NN & M & G)].
  - cbn in C. injection C as <-. inversion V; subst. reflexivity.
  - destruct v as [v|]; [|inversion NN; congruence]. cbn [combined_trait app]. cbn [combined_trait] in C.
    destruct (combined (somes (Some v :: vs))) as [c0|] eqn:Ec.
    2: { cbn [somes] in Ec. unfold combined in Ec. destruct (all_arrays (v :: somes vs)); discriminate. }
    injection C as <-. inversion V as [|a b c CV E1 E2 E3]; subst.
    f_equal. cbn [somes app]. assert (S1 : somes (vs ++ [Some b]) = somes vs ++ [b]).
    { clear. induction vs as [|[q|] vs IH]; cbn; congruence. }
    rewrite S1. change (v :: somes vs ++ [b]) with ((v :: somes vs) ++ [b]).
    eapply combined_snoc; [exact G|exact Ec|exact CV].
Qed.
Lemma combined_trait_perm vs vs' :
  Permutation vs vs' -> Forall tv_ok vs -> ForallOrdPairs trait_combinable vs ->
  ForallOrdPairs (fun x y => forall a b, x = Some a -> y = Some b -> ~ (is_array_value a /\ is_array_value b)) vs ->
  opt_rel (eq_or same_trait_value) (combined_trait vs) (combined_trait vs').
Proof.
  intros Q W F N. destruct vs as [|v vs]; [apply Permutation_nil in Q as ->; exact I|].
  destruct vs' as [|v' vs']; [symmetry in Q; apply Permutation_nil in Q; discriminate|].
  destruct (trait_list v vs F) as [[-> Na]|(NN & M & G)].
  - assert (I : In v' (None :: vs)) by (eapply Permutation_in; [symmetry; exact Q|now left]).
    assert (v' = None) by (destruct I as [<-|I]; [reflexivity|rewrite Forall_forall in Na; auto]). subst v'.
    left; reflexivity.
  - assert (NN' : Forall (fun x => x <> None) (v' :: vs')) by (eapply Permutation_Forall; eauto).
    destruct v as [v|]; [|inversion NN; congruence]. destruct v' as [v'|]; [|inversion NN'; congruence].
    assert (P : opt_rel (eq_or same_value) (combined (somes (Some v :: vs))) (combined (somes (Some v' :: vs')))).
    { apply combined_perm; [|apply tv_somes, W|exact G|].
      - pose proof (somes_perm (fun x => x) _ _ Q) as P. rewrite !map_id in P. exact P.
      - rewrite <- (map_id (Some v :: vs)). eapply FOP_somes; [|exact N]. intros a b x y H Ea Eb. cbn in *. eauto. }
    cbn [combined_trait opt_rel]. cbn [somes] in *. unfold eq_or, same_trait_value.
    destruct (combined (v :: somes vs)), (combined (v' :: somes vs')); cbn in *; try tauto.
    destruct P as [->|P]; auto.
Qed.

(** ** Bodies *)
Lemma opt_rel_trans {A} (R : A -> A -> Prop) x y z :
  (forall a b c, R a b -> R b c -> R a c) -> opt_rel R x y -> opt_rel R y z -> opt_rel R x z.
Proof. intros T. destruct x, y, z; cbn; try tauto. eauto. Qed.
Lemma Forall2_trans {A} (R : A -> A -> Prop) x y z :
  (forall a b c, R a b -> R b c -> R a c) -> Forall2 R x y -> Forall2 R y z -> Forall2 R x z.
Proof.
  intros T F. revert z. induction F; intros z G; inversion G; subst; constructor; eauto.
Qed.

Section WithHasher.
  Context `{Hasher}.
  Lemma same_name_trans a b c : same_name a b -> same_name b c -> same_name a c.
  Proof. unfold same_name. congruence. Qed.
  Lemma same_member_trans a b c : same_member a b -> same_member b c -> same_member a c.
  Proof. unfold same_member. intros [A1 A2] [B1 B2]. split; [eapply same_name_trans; eauto|eapply same_id_trans; eauto]. Qed.
  Lemma same_structure_trans a b c : same_structure a b -> same_structure b c -> same_structure a c.
  Proof.
    pose proof same_id_trans as SI. pose proof same_name_trans as SN. pose proof same_member_trans as SM.
    intros A B. inversion A; subst; inversion B; subst; constructor; eauto;
      try (intros n; eapply opt_rel_trans; eauto; fail).
    - match goal with h1 : same_service _ _, h2 : same_service _ _ |- _ => destruct h1 as (A1 & A2 & A3 & A4), h2 as (B1 & B2 & B3 & B4) end.
      split; [congruence|]. split; [eapply Forall2_trans; eauto|]. split; [eapply Forall2_trans; eauto|].
      intros i. eapply opt_rel_trans; eauto.
    - match goal with h1 : same_operation _ _, h2 : same_operation _ _ |- _ => destruct h1 as (A1 & A2 & A3), h2 as (B1 & B2 & B3) end.
      split; [eapply opt_rel_trans; eauto|]. split; [eapply opt_rel_trans; eauto|eapply Forall2_trans; eauto].
    - match goal with h1 : same_resource _ _, h2 : same_resource _ _ |- _ =>
        destruct h1 as (A0 & A1 & A2 & A3 & A4 & A5 & A6 & A7 & A8 & A9), h2 as (B0 & B1 & B2 & B3 & B4 & B5 & B6 & B7 & B8 & B9) end.
      repeat split; first [intros n; eapply opt_rel_trans; eauto; fail | eapply opt_rel_trans; eauto; fail | eapply Forall2_trans; eauto].
  Qed.
  Lemma resolved_dec b : b = KUnresolved \/ b <> KUnresolved.
  Proof. destruct b; auto; right; discriminate. Qed.
  Lemma bodies_resolved a b : a <> KUnresolved -> b <> KUnresolved -> (bodies_compatible a b <-> same_structure a b).
  Proof. unfold bodies_compatible. intuition congruence. Qed.
  Definition shape_bodies (a b : shape) : Prop := bodies_compatible (ts_body a) (ts_body b).
  Lemma first_resolved_cons s l : first_resolved (s :: l) = merged_body (ts_body s) (first_resolved l).
  Proof. cbn. destruct (ts_body s); reflexivity. Qed.
  Lemma first_resolved_snoc l s : first_resolved (l ++ [s]) = merged_body (first_resolved l) (ts_body s).
  Proof.
    induction l as [|a l IH]; [cbn; destruct (ts_body s); reflexivity|]. cbn [app].
    rewrite !first_resolved_cons, IH. destruct (ts_body a); reflexivity.
  Qed.
  Lemma first_resolved_In l : first_resolved l = KUnresolved \/ exists s, In s l /\ ts_body s = first_resolved l.
  Proof.
    induction l as [|a l IH]; [left; reflexivity|]. rewrite first_resolved_cons.
    destruct (ts_body a) eqn:E; cbn [merged_body]; try (right; exists a; split; [now left|exact E]).
    destruct IH as [->|(s & I & Es)]; [left; reflexivity|right; exists s; split; [now right|exact Es]].
  Qed.
  Lemma first_resolved_none l : first_resolved l = KUnresolved -> forall s, In s l -> ts_body s = KUnresolved.
  Proof.
    induction l as [|a l IH]; [intros _ s []|]. rewrite first_resolved_cons. intros E s [<-|I].
    - apply merged_body_unresolved in E; tauto.
    - apply IH; [apply merged_body_unresolved in E; tauto|exact I].
  Qed.
  Lemma bodies_sym a b : bodies_compatible a b -> bodies_compatible b a.
  Proof. unfold bodies_compatible. intros [E|[E|E]]; auto. right; right. apply same_structure_sym, E. Qed.
  Lemma first_resolved_compatible l b :
    ForallOrdPairs shape_bodies l ->
    (bodies_compatible (first_resolved l) b <-> Forall (fun s => bodies_compatible (ts_body s) b) l).
  Proof.
    intros F. destruct (resolved_dec b) as [->|Nb].
    { split; [intros _; apply Forall_forall; intros s _; right; left; reflexivity|intros _; right; left; reflexivity]. }
    destruct (resolved_dec (first_resolved l)) as [E|E].
    - split; [|intros _; left; exact E]. intros _. apply Forall_forall. intros s I. left. eapply first_resolved_none; eauto.
    - destruct (first_resolved_In l) as [C|(s0 & I0 & E0)]; [congruence|]. rewrite <- E0 in *. split.
      + intros C. apply bodies_resolved in C; auto. apply Forall_forall. intros s I.
        destruct (resolved_dec (ts_body s)) as [U|U]; [left; exact U|]. apply bodies_resolved; auto.
        destruct (FOP_In _ _ F s s0 I I0) as [->|[D|D]]; [exact C| |]; unfold shape_bodies in D.
        * apply bodies_resolved in D; auto. eapply same_structure_trans; eauto.
        * apply bodies_resolved in D; auto. eapply same_structure_trans; [|exact C]. apply same_structure_sym, D.
      + intros G. rewrite Forall_forall in G. apply G, I0.
  Qed.
  Lemma first_resolved_perm l l' :
    Permutation l l' -> ForallOrdPairs shape_bodies l -> eq_or same_structure (first_resolved l) (first_resolved l').
  Proof.
    intros Q F. destruct (resolved_dec (first_resolved l)) as [E|E].
    - left. rewrite E. destruct (first_resolved_In l') as [C|(s & I & <-)]; [auto|].
      symmetry. eapply first_resolved_none; [exact E|]. eapply Permutation_in; [symmetry; exact Q|exact I].
    - destruct (first_resolved_In l) as [C|(s & I & Es)]; [congruence|].
      destruct (first_resolved_In l') as [C|(s' & I' & Es')].
      { exfalso. apply E. rewrite <- Es. eapply first_resolved_none; [exact C|]. eapply Permutation_in; eauto. }
      assert (E' : first_resolved l' <> KUnresolved).
      { intros C. apply E. rewrite <- Es. eapply first_resolved_none; [exact C|]. eapply Permutation_in; eauto. }
      rewrite <- Es, <- Es' in *.
      destruct (FOP_In _ _ F s s' I) as [->|[D|D]]; [eapply Permutation_in; [symmetry; exact Q|exact I']|left; reflexivity| |];
        unfold shape_bodies in D; apply bodies_resolved in D; auto; right; [exact D|apply same_structure_sym, D].
  Qed.
End WithHasher.
