(** Descriptions with the same parts in other orders give the same graph, up to the names of blank nodes. *)
From Verif.Model Require Import SemModel Rdf.
From Verif.Spec Require Import ModelSpec ReorderSpec RdfSpec.
From Verif.Proofs Require Import BaseFacts ReorderFacts ReorderEquiv RdfFacts ValueFacts.
From Coq Require Import Permutation.

(** A block puts out statements about a subject, taking new nodes from a number on. *)
Definition block := term -> nat -> list statement * nat.
Definition inside (s : term) (a b : nat) (t : term) : Prop := t = s \/ match t with TBlank j => a <= j < b | _ => True end.
Definition tidy (B : block) : Prop := forall s n, exists k, snd (B s n) = n + k
  /\ forall st, In st (fst (B s n)) -> inside s n (n + k) (st_subject st) /\ inside s n (n + k) (st_object st).
Definition same_block (B C : block) : Prop := forall s s' n n', below_node s n -> below_node s' n' ->
  exists k f, snd (B s n) = n + k /\ snd (C s' n') = n' + k
    /\ (forall i, n <= i < n + k -> n' <= f i < n' + k)
    /\ (forall i j, n <= i < n + k -> n <= j < n + k -> f i = f j -> i = j)
    /\ forall g : nat -> nat, (forall i, n <= i < n + k -> g i = f i) -> rename_term g s = s' ->
         Permutation (map (rename_statement g) (fst (B s n))) (fst (C s' n')).
Fixpoint seqb (Bs : list block) : block := fun s n =>
  match Bs with
  | [] => ([], n)
  | B :: Bs' => (fst (B s n) ++ fst (seqb Bs' s (snd (B s n))), snd (seqb Bs' s (snd (B s n))))
  end.

Lemma inside_wider s a b c d t : c <= a -> b <= d -> inside s a b t -> inside s c d t.
Proof. intros L M [E|I]; [left; exact E|right]. destruct t; auto. lia. Qed.
Lemma below_wider s n m : n <= m -> below_node s n -> below_node s m.
Proof. intros L B k E. specialize (B k E). lia. Qed.
Lemma below_more s n k : below_node s n -> below_node s (n + k).
Proof. apply below_wider. lia. Qed.
Lemma tidy_seq Bs : Forall tidy Bs -> tidy (seqb Bs).
Proof.
  induction 1 as [|B Bs T _ IH]; intros s n.
  - exists 0. split; [cbn; lia|]. intros st [].
  - destruct (T s n) as (k & E & I). destruct (IH s (n + k)) as (k' & E' & I'). exists (k + k'). cbn [seqb fst snd]. rewrite E, E'. split; [lia|].
    intros st J. apply in_app_iff in J as [J|J].
    + destruct (I st J). split; eapply inside_wider; try eassumption; lia.
    + destruct (I' st J). split; eapply inside_wider; try eassumption; lia.
Qed.
Lemma same_nil : same_block (seqb []) (seqb []).
Proof. intros s s' n n' _ _. exists 0, (fun i => i). cbn. repeat split; try lia. intros. constructor. Qed.
Lemma same_cons B C Bs Cs : same_block B C -> same_block (seqb Bs) (seqb Cs) -> same_block (seqb (B :: Bs)) (seqb (C :: Cs)).
Proof.
  intros S1 S2 s s' n n' L L'. destruct (S1 s s' n n' L L') as (k & f & E & E' & R & I & P).
  destruct (S2 s s' (n + k) (n' + k) (below_more _ _ _ L) (below_more _ _ _ L')) as (k2 & f2 & E2 & E2' & R2 & I2 & P2).
  exists (k + k2), (fun i => if Nat.ltb i (n + k) then f i else f2 i). cbn [seqb fst snd]. rewrite E, E', E2, E2'.
  split; [lia|]. split; [lia|]. split; [|split].
  - intros i Hi. destruct (Nat.ltb_spec i (n + k)) as [X|X]; [specialize (R i); lia|specialize (R2 i); lia].
  - intros i j Hi Hj. destruct (Nat.ltb_spec i (n + k)) as [X|X], (Nat.ltb_spec j (n + k)) as [Y|Y]; intros Q.
    + apply I; lia.
    + specialize (R i); specialize (R2 j); lia.
    + specialize (R j); specialize (R2 i); lia.
    + apply I2; lia.
  - intros g G Hs. rewrite map_app. apply Permutation_app.
    + apply P; [|exact Hs]. intros i Hi. rewrite G by lia. destruct (Nat.ltb_spec i (n + k)); [reflexivity|lia].
    + apply P2; [|exact Hs]. intros i Hi. rewrite G by lia. destruct (Nat.ltb_spec i (n + k)); [lia|reflexivity].
Qed.
Lemma same_swap B C Bs : tidy B -> same_block B B -> same_block C C -> same_block (seqb Bs) (seqb Bs) ->
  same_block (seqb (B :: C :: Bs)) (seqb (C :: B :: Bs)).
Proof.
  intros TB SB SC SR s s' n n' L L'. destruct (TB s n) as (kb & Eb & _).
  destruct (SC s s' (n + kb) n' (below_more _ _ _ L) L') as (kc & fc & Ec & Ec' & Rc & Ic & Pc).
  destruct (SB s s' n (n' + kc) L (below_more _ _ _ L')) as (kb' & fb & Eb1 & Eb' & Rb & Ib & Pb).
  assert (kb' = kb) by lia. subst kb'. clear Eb1.
  destruct (SR s s' (n + kb + kc) (n' + kc + kb) (below_more _ _ _ (below_more _ _ _ L)) (below_more _ _ _ (below_more _ _ _ L'))) as (kr & fr & Er & Er' & Rr & Ir & Pr).
  exists (kb + kc + kr), (fun i => if Nat.ltb i (n + kb) then fb i else if Nat.ltb i (n + kb + kc) then fc i else fr i). cbn [seqb fst snd].
  rewrite Eb, Ec, Ec', Eb', Er, Er'. split; [lia|]. split; [lia|]. split; [|split].
  - intros i Hi. specialize (Rb i). specialize (Rc i). specialize (Rr i). destruct (Nat.ltb_spec i (n + kb)); [lia|]. destruct (Nat.ltb_spec i (n + kb + kc)); lia.
  - intros i j Hi Hj Q. pose proof (Rb i). pose proof (Rc i). pose proof (Rr i). pose proof (Rb j). pose proof (Rc j). pose proof (Rr j).
    destruct (Nat.ltb_spec i (n + kb)), (Nat.ltb_spec j (n + kb)); try (apply Ib; lia);
      try destruct (Nat.ltb_spec i (n + kb + kc)); try destruct (Nat.ltb_spec j (n + kb + kc)); try lia; try (apply Ic; lia); try (apply Ir; lia).
  - intros g G Hs. rewrite !map_app.
    assert (X1 : Permutation (map (rename_statement g) (fst (B s n))) (fst (B s' (n' + kc)))).
    { apply Pb; [|exact Hs]. intros i Hi. rewrite G by lia. destruct (Nat.ltb_spec i (n + kb)); [reflexivity|lia]. }
    assert (X2 : Permutation (map (rename_statement g) (fst (C s (n + kb)))) (fst (C s' n'))).
    { apply Pc; [|exact Hs]. intros i Hi. rewrite G by lia. destruct (Nat.ltb_spec i (n + kb)); [lia|]. destruct (Nat.ltb_spec i (n + kb + kc)); [reflexivity|lia]. }
    assert (X3 : Permutation (map (rename_statement g) (fst (seqb Bs s (n + kb + kc)))) (fst (seqb Bs s' (n' + kc + kb)))).
    { apply Pr; [|exact Hs]. intros i Hi. rewrite G by lia. destruct (Nat.ltb_spec i (n + kb)); [lia|]. destruct (Nat.ltb_spec i (n + kb + kc)); [lia|reflexivity]. }
    rewrite X1, X2, X3. rewrite !app_assoc. apply Permutation_app_tail, Permutation_app_comm.
Qed.
Lemma rename_agree g h s a b t : below_node s a -> inside s a b t -> (forall i, a <= i < b -> g i = h i) -> rename_term g s = rename_term h s ->
  rename_term g t = rename_term h t.
Proof. intros L [->|I] A E; [exact E|]. destruct t; try reflexivity. cbn. rewrite A by exact I. reflexivity. Qed.
Lemma same_trans B C D : tidy B -> same_block B C -> same_block C D -> same_block B D.
Proof.
  intros T S1 S2 s s' n n' L L'. destruct (S1 s s n n L L) as (k & f & E & E' & R & I & P).
  destruct (S2 s s' n n' L L') as (k2 & f2 & E2 & E2' & R2 & I2 & P2). assert (k2 = k) by lia. subst k2.
  destruct (T s n) as (k2 & E3 & In_). assert (k2 = k) by lia. subst k2.
  exists k, (fun i => f2 (f i)). split; [exact E|]. split; [exact E2'|]. split; [|split].
  - intros i Hi. apply R2, R, Hi.
  - intros i j Hi Hj Q. apply I; try assumption. apply I2; auto.
  - intros g G Hs.
    set (g1 := fun i => if Nat.leb n i && Nat.ltb i (n + k) then f i else i). set (g2 := fun i => if Nat.leb n i && Nat.ltb i (n + k) then f2 i else g i).
    assert (out : forall (h h' : nat -> nat), rename_term (fun i => if Nat.leb n i && Nat.ltb i (n + k) then h i else h' i) s = rename_term h' s).
    { intros h h'. destruct s as [|j|]; try reflexivity. cbn. pose proof (L j eq_refl). destruct (Nat.leb_spec n j); [lia|reflexivity]. }
    assert (in1 : forall (h h' : nat -> nat) i, n <= i < n + k -> (if Nat.leb n i && Nat.ltb i (n + k) then h i else h' i) = h i).
    { intros h h' i Hi. destruct (Nat.leb_spec n i); [|lia]. destruct (Nat.ltb_spec i (n + k)); [reflexivity|lia]. }
    assert (id : rename_term (fun i => i) s = s) by (destruct s; reflexivity).
    specialize (P g1 (in1 f (fun i => i))). specialize (P (eq_trans (out f (fun i => i)) id)).
    specialize (P2 g2 (in1 f2 g) (eq_trans (out f2 g) Hs)). rewrite <- P2, <- P. rewrite map_map.
    assert (M : map (rename_statement g) (fst (B s n)) = map (fun x => rename_statement g2 (rename_statement g1 x)) (fst (B s n))).
    { apply map_ext_in. intros [a p o] J. destruct (In_ _ J) as [Ia Io]. cbn in Ia, Io. unfold rename_statement. cbn [st_subject st_predicate st_object].
      assert (C1 : forall t, rename_term g2 (rename_term g1 t) = rename_term (fun i => g2 (g1 i)) t) by (intros []; reflexivity).
      rewrite !C1. f_equal; (apply (rename_agree _ _ s n (n + k)); [exact L|assumption| |]).
      all: try (intros i Hi; rewrite G by exact Hi; unfold g1, g2; rewrite (in1 f (fun i => i) i Hi), (in1 f2 g (f i)) by (apply R, Hi); reflexivity).
      all: rewrite <- C1; unfold g1; rewrite (out f (fun i => i)), id; unfold g2; rewrite (out f2 g); reflexivity. }
    rewrite M. reflexivity.
Qed.
Definition good (B : block) : Prop := tidy B /\ same_block B B.
Lemma same_refl Bs : Forall good Bs -> same_block (seqb Bs) (seqb Bs).
Proof. induction 1 as [|B Bs G _ IH]; [exact same_nil|]. apply same_cons; [apply G|exact IH]. Qed.
Lemma good_tidy Bs : Forall good Bs -> tidy (seqb Bs).
Proof. intros G. apply tidy_seq. eapply Forall_impl; [|exact G]. intros B []. assumption. Qed.
Lemma same_perm Bs Cs : Permutation Bs Cs -> Forall good Bs -> same_block (seqb Bs) (seqb Cs).
Proof.
  induction 1 as [|B Bs Cs P IH|B C Bs|Bs Cs Ds P1 IH1 P2 IH2]; intros G.
  - exact same_nil.
  - inversion G; subst. apply same_cons; [apply H1|apply IH; assumption].
  - inversion G as [|? ? G1 G2]; subst. inversion G2 as [|? ? G3 G4]; subst. apply same_swap; [apply G1|apply G1|apply G3|apply same_refl, G4].
  - eapply same_trans; [apply good_tidy, G|apply IH1, G|]. apply IH2. rewrite Forall_forall in *. intros x J. apply G. exact (Permutation_in _ (Permutation_sym P1) J).
Qed.
Lemma same_forall2 Bs Cs : Forall2 same_block Bs Cs -> same_block (seqb Bs) (seqb Cs).
Proof. induction 1; [exact same_nil|]. apply same_cons; assumption. Qed.

(** ** Descriptions *)
Inductive perm_obj : obj -> obj -> Prop :=
| po_term t : perm_obj (OTerm t) (OTerm t)
| po_node a b : reordered perm_obj a b -> perm_obj (ONode a) (ONode b).
Notation perm_props := (@reordered iri obj perm_obj).
Lemma perm_obj_refl o : perm_obj o o.
Proof.
  induction o as [t|ps IH] using obj_ind'; constructor. exists ps. split; [reflexivity|]. induction IH; constructor; auto.
Qed.
Definition blk (x : iri * obj) : block := fun s n => flat_obj (snd x) n s (fst x).
Lemma flat_seq ps : forall s n, flat_props s ps n = seqb (map blk ps) s n.
Proof.
  induction ps as [|[p x] ps IH]; intros s n; [reflexivity|]. cbn [map seqb flat_with]. change (blk (p, x) s n) with (flat_obj x n s p).
  destruct (flat_obj x n s p) as [a n1]. cbn [fst snd]. rewrite IH. destruct (seqb (map blk ps) s n1). reflexivity.
Qed.
Lemma blk_node ps p s n : blk (p, ONode ps) s n = (St s p (TBlank n) :: fst (seqb (map blk ps) (TBlank n) (S n)), snd (seqb (map blk ps) (TBlank n) (S n))).
Proof. change (blk (p, ONode ps) s n) with (flat_obj (ONode ps) n s p). cbn [flat_obj]. rewrite flat_seq. destruct (seqb (map blk ps) (TBlank n) (S n)). reflexivity. Qed.
Lemma clean_in ps x : clean_props ps = true -> In x ps -> clean (snd x) = true.
Proof. unfold clean_props. rewrite forallb_forall. auto. Qed.
Lemma tidy_blk o : forall p, clean o = true -> tidy (blk (p, o)).
Proof.
  induction o as [t|ps IH] using obj_ind'; intros p C s n.
  - exists 0. cbn. split; [lia|]. intros st [<-|[]]. cbn. split; [left; reflexivity|right]. destruct t; [exact I|discriminate C|exact I].
  - rewrite blk_node. cbn [fst snd].
    assert (T : tidy (seqb (map blk ps))).
    { apply tidy_seq. apply Forall_forall. intros B J. apply in_map_iff in J as ([q x] & <- & J). rewrite Forall_forall in IH. apply (IH _ J). exact (clean_in _ _ C J). }
    destruct (T (TBlank n) (S n)) as (k & E & F). exists (S k). rewrite E. split; [lia|]. intros st [<-|J].
    + cbn. split; [left; reflexivity|right; lia].
    + destruct (F st J) as [F1 F2].
      assert (X : forall t, inside (TBlank n) (S n) (S n + k) t -> inside s n (n + S k) t) by (intros t [->|Y]; right; [lia|destruct t; auto; lia]).
      split; apply X; assumption.
Qed.
Lemma perm_obj_same o : forall o' p, perm_obj o o' -> clean o = true -> same_block (blk (p, o)) (blk (p, o')).
Proof.
  induction o as [t|ps IH] using obj_ind'; intros o' p R C; inversion R as [|? qs (c & P & F)]; subst.
  - intros s s' n n' _ _. exists 0, (fun i => i). cbn. repeat split; try lia. intros g _ <-. unfold rename_statement. cbn.
    destruct t; try reflexivity. discriminate C.
  - rewrite Forall_forall in IH.
    assert (X : same_block (seqb (map blk ps)) (seqb (map blk qs))).
    { assert (G : Forall good (map blk ps)).
      { apply Forall_forall. intros B J. apply in_map_iff in J as ([q x] & <- & J). split; [apply tidy_blk, (clean_in _ _ C J)|].
        apply (IH _ J); [apply perm_obj_refl|exact (clean_in _ _ C J)]. }
      eapply same_trans; [apply good_tidy, G|apply same_perm; [apply Permutation_map, P|exact G]|].
      apply same_forall2.
      assert (IHc : forall x, In x c -> forall o' p, perm_obj (snd x) o' -> clean (snd x) = true -> same_block (blk (p, snd x)) (blk (p, o'))).
      { intros x J. apply IH. exact (Permutation_in _ (Permutation_sym P) J). }
      assert (Cc : forall x, In x c -> clean (snd x) = true).
      { intros x J. apply (clean_in ps); [exact C|]. exact (Permutation_in _ (Permutation_sym P) J). }
      clear -F IHc Cc. induction F as [|[q x] [q' y] c qs [E Rxy] F IHF]; [constructor|]. cbn in E, Rxy. subst q'. cbn [map]. constructor.
      - apply (IHc (q, x)); [left; reflexivity|exact Rxy|apply (Cc (q, x)); left; reflexivity].
      - apply IHF; intros z J; [apply IHc|apply Cc]; right; exact J. }
    intros s s' n n' L L'.
    destruct (X (TBlank n) (TBlank n') (S n) (S n') ltac:(intros j Q; injection Q; lia) ltac:(intros j Q; injection Q; lia)) as (k & f & E & E' & Rg & I & Pm).
    exists (S k), (fun i => if Nat.eqb i n then n' else f i). rewrite !blk_node. cbn [fst snd]. rewrite E, E'. split; [lia|]. split; [lia|]. split; [|split].
    + intros i Hi. destruct (Nat.eqb_spec i n); [lia|]. specialize (Rg i). lia.
    + intros i j Hi Hj. pose proof (Rg i). pose proof (Rg j). destruct (Nat.eqb_spec i n), (Nat.eqb_spec j n); try lia. intros Q. apply I; lia.
    + intros g G Hs. assert (Gn : g n = n') by (rewrite G by lia; rewrite Nat.eqb_refl; reflexivity).
      cbn [map]. unfold rename_statement at 1. cbn [st_subject st_predicate st_object rename_term]. rewrite Hs, Gn. constructor. apply Pm; [|cbn; rewrite Gn; reflexivity].
      intros i Hi. rewrite G by lia. destruct (Nat.eqb_spec i n); [lia|reflexivity].
Qed.
Lemma perm_props_same ps qs : clean_props ps = true -> perm_props ps qs -> same_block (seqb (map blk ps)) (seqb (map blk qs)).
Proof.
  intros C R s s' n n' L L'.
  (* the same blocks as those inside of a node *)
  assert (G : Forall good (map blk ps)).
  { apply Forall_forall. intros B J. apply in_map_iff in J as ([q x] & <- & J). split; [apply tidy_blk, (clean_in _ _ C J)|].
    apply perm_obj_same; [apply perm_obj_refl|exact (clean_in _ _ C J)]. }
  revert s s' n n' L L'. destruct R as (c & P & F). change (same_block (seqb (map blk ps)) (seqb (map blk qs))).
  eapply same_trans; [apply good_tidy, G|apply same_perm; [apply Permutation_map, P|exact G]|]. apply same_forall2.
  assert (Cc : forall x, In x c -> clean (snd x) = true).
  { intros x J. apply (clean_in ps); [exact C|]. exact (Permutation_in _ (Permutation_sym P) J). }
  clear -F Cc. induction F as [|[q x] [q' y] c qs [E Rxy] F IHF]; [constructor|]. cbn in E, Rxy. subst q'. cbn [map]. constructor.
  - apply perm_obj_same; [exact Rxy|apply (Cc (q, x)); left; reflexivity].
  - apply IHF. intros z J. apply Cc. right. exact J.
Qed.

(** ** The descriptions of reordered shapes *)
Lemma props_refl ps : perm_props ps ps.
Proof. exists ps. split; [reflexivity|]. induction ps as [|x ps IH]; constructor; [split; [reflexivity|apply perm_obj_refl]|exact IH]. Qed.
Lemma props_cons p o o' a b : perm_obj o o' -> perm_props a b -> perm_props ((p, o) :: a) ((p, o') :: b).
Proof. intros O (c & P & F). exists ((p, o) :: c). split; [constructor; exact P|constructor; [split; [reflexivity|exact O]|exact F]]. Qed.
Lemma props_app a b c d : perm_props a b -> perm_props c d -> perm_props (a ++ c) (b ++ d).
Proof. intros (x & P & F) (y & Q & G). exists (x ++ y). split; [apply Permutation_app; assumption|apply Forall2_app; assumption]. Qed.
Lemma props_map {K V} (R : V -> V -> Prop) (f : K * V -> iri * obj) a b :
  (forall k x y, In (k, x) a -> R x y -> fst (f (k, x)) = fst (f (k, y)) /\ perm_obj (snd (f (k, x))) (snd (f (k, y)))) ->
  reordered R a b -> perm_props (map f a) (map f b).
Proof.
  intros E (c & P & F). exists (map f c). split; [apply Permutation_map, P|].
  assert (E' : forall k x y, In (k, x) c -> R x y -> fst (f (k, x)) = fst (f (k, y)) /\ perm_obj (snd (f (k, x))) (snd (f (k, y)))).
  { intros k x y J. apply E. exact (Permutation_in _ (Permutation_sym P) J). }
  clear E P. induction F as [|[k x] [k' y] c b [Ek Rxy] F IH]; [constructor|]. cbn in Ek, Rxy. subst k'. cbn [map]. constructor.
  - apply E'; [left; reflexivity|exact Rxy].
  - apply IH. intros k2 x2 y2 J. apply E'. right. exact J.
Qed.
Section Shapes.
  Variable f64_str : Z -> str.
  Lemma value_perm v : forall w, reorder_value v w -> perm_obj (value_obj f64_str v) (value_obj f64_str w).
  Proof.
    induction v as [l IH|l IH|n|x|s|] using value_ind'; intros w R; inversion R as [? r F|? l' r P F|]; subst; try apply perm_obj_refl; cbn [value_obj]; constructor.
    - apply props_cons; [apply perm_obj_refl|]. clear R. exists (map (fun x => (rdf "li", value_obj f64_str x)) l). split; [reflexivity|].
      induction F as [|x y l r Rxy F IHF]; cbn [map]; [constructor|]. inversion IH as [|? ? I1 I2]; subst. constructor; [split; [reflexivity|apply I1, Rxy]|apply IHF, I2].
    - apply props_cons; [apply perm_obj_refl|]. clear R. rewrite Forall_forall in IH.
      apply (props_map reorder_value (fun kv => (rdf "li", ONode [(smithy "key", text (fst kv)); (smithy "value", value_obj f64_str (snd kv))]))).
      + intros k x y I Rxy. cbn. split; [reflexivity|]. constructor. apply props_cons; [apply perm_obj_refl|]. apply props_cons; [exact (IH _ I _ Rxy)|apply props_refl].
      + exists l'. split; assumption.
  Qed.
  Lemma traits_perm a b : reorder_traits a b -> perm_props (trait_properties f64_str a) (trait_properties f64_str b).
  Proof.
    intros R. unfold trait_properties. eapply props_map; [|exact R]. intros k x y _ Rxy. cbn. split; [reflexivity|]. unfold trait_obj. cbn [fst snd].
    constructor. apply props_cons; [apply perm_obj_refl|]. destruct x as [x|], y as [y|]; cbn in Rxy; try contradiction; [|apply props_refl].
    apply props_cons; [apply value_perm, Rxy|apply props_refl].
  Qed.
  Lemma member_perm a b : reorder_member a b -> perm_obj (snd (member_property f64_str a)) (snd (member_property f64_str b)).
  Proof. intros (E1 & E2 & T). cbn. rewrite E1, E2. constructor. do 2 (apply props_cons; [apply perm_obj_refl|]). apply traits_perm, T. Qed.
  Lemma member_one a b : reorder_member a b -> perm_props [member_property f64_str a] [member_property f64_str b].
  Proof. intros M. apply (props_cons (smithy "member")); [apply (member_perm _ _ M)|apply props_refl]. Qed.
  (** At most one identifier: they are numbered. *)
  Definition few_identifiers (b : shape_kind) : Prop := match b with KResource r => length (rs_identifiers r) <= 1 | _ => True end.
  Lemma body_perm a b : few_identifiers a -> reorder_body a b -> perm_props (body_properties f64_str a) (body_properties f64_str b).
  Proof.
    intros O R0; revert O; destruct R0 as [? ? M|? ? M|? ? ? ? M M'|? ? R|? ? R|? ? (E1 & E2 & E3 & _)|r r' (P & RR)|]; intros O; cbn [body_properties]; try apply props_refl.
    - apply member_one, M.
    - apply member_one, M.
    - apply (props_app [_] [_] [_] [_]); apply member_one; assumption.
    - eapply props_map; [|exact R]. intros k x y _ M. split; [reflexivity|]. apply member_perm, M.
    - eapply props_map; [|exact R]. intros k x y _ M. split; [reflexivity|]. apply member_perm, M.
    - rewrite E1, E2, E3. apply props_refl.
    - assert (EI : rs_identifiers r = rs_identifiers r').
      { cbn in O. destruct (rs_identifiers r) as [|d [|d' l]]; [| |cbn in O; lia].
        - apply Permutation_nil in P. rewrite P. reflexivity.
        - apply Permutation_length_1_inv in P. rewrite P. reflexivity. }
      destruct RR as (-> & -> & -> & -> & -> & -> & -> & -> & ->). rewrite EI. apply props_refl.
  Qed.
  Lemma kind_class_order a b : reorder_body a b -> kind_class a = kind_class b.
  Proof. intros []; reflexivity. Qed.
  Lemma description_perm s t : few_identifiers (ts_body s) -> reorder_shape s t -> perm_props (shape_description f64_str s) (shape_description f64_str t).
  Proof.
    intros F (_ & T & B). unfold shape_description. rewrite (kind_class_order _ _ B). apply props_cons; [apply perm_obj_refl|].
    apply props_app; [apply body_perm; assumption|apply traits_perm, T].
  Qed.

  (** ** The graphs *)
  Definition sblk (s : shape) : block := fun subject n => shape_statements f64_str subject s n.
  Lemma all_seq l : forall subject n, all_statements f64_str subject l n = seqb (map sblk l) subject n.
  Proof.
    induction l as [|s l IH]; intros subject n; [reflexivity|]. cbn [map seqb all_statements]. change (sblk s subject n) with (shape_statements f64_str subject s n).
    destruct (shape_statements f64_str subject s n) as [a n1]. cbn [fst snd]. rewrite IH. destruct (seqb (map sblk l) subject n1). reflexivity.
  Qed.
  Lemma sblk_is s subject n : is_unresolved (ts_body s) = false ->
    sblk s subject n = (St subject (smithy "shape") (urn s) :: fst (seqb (map blk (shape_description f64_str s)) (urn s) n),
                        snd (seqb (map blk (shape_description f64_str s)) (urn s) n)).
  Proof. intros U. unfold sblk, shape_statements. rewrite U, flat_seq. fold (urn s). destruct (seqb _ (urn s) n). reflexivity. Qed.
  Lemma tidy_sblk s : tidy (sblk s).
  Proof.
    intros subject n. destruct (is_unresolved (ts_body s)) eqn:U.
    - exists 0. unfold sblk, shape_statements. rewrite U. cbn. split; [lia|]. intros st [].
    - rewrite sblk_is by exact U. cbn [fst snd].
      assert (T : tidy (seqb (map blk (shape_description f64_str s)))).
      { apply tidy_seq, Forall_forall. intros B J. apply in_map_iff in J as ([q x] & <- & J). apply tidy_blk. exact (clean_in _ _ (clean_shape f64_str s) J). }
      destruct (T (urn s) n) as (k & E & F). exists k. split; [exact E|].
      assert (X : forall t, inside (urn s) n (n + k) t -> inside subject n (n + k) t) by (intros t [->|Y]; right; [exact I|exact Y]).
      intros st [<-|J]; [cbn; split; [left; reflexivity|right; exact I]|]. destruct (F st J). split; apply X; assumption.
  Qed.
  Lemma sblk_same s t : few_identifiers (ts_body s) -> reorder_shape s t -> same_block (sblk s) (sblk t).
  Proof.
    intros O R. assert (RS := R). destruct R as (Ei & _ & B).
    assert (Eu : is_unresolved (ts_body s) = is_unresolved (ts_body t)) by (destruct B; reflexivity).
    intros x x' n n' L L'. destruct (is_unresolved (ts_body s)) eqn:U.
    - exists 0, (fun i => i). unfold sblk, shape_statements. rewrite U, <- Eu. cbn. repeat split; try lia. intros. constructor.
    - rewrite !sblk_is by congruence. cbn [fst snd]. assert (Eur : urn s = urn t) by (unfold urn; rewrite Ei; reflexivity). rewrite <- Eur.
      destruct (perm_props_same _ _ (clean_shape f64_str s) (description_perm s t O RS) (urn s) (urn s) n n') as (k & f & E & E' & Rg & I & P);
        try (intros j Q; discriminate Q).
      exists k, f. split; [exact E|]. split; [exact E'|]. split; [exact Rg|]. split; [exact I|]. intros g G Hs. cbn [map].
      unfold rename_statement at 1. cbn [st_subject st_predicate st_object]. rewrite Hs. constructor. apply P; [exact G|reflexivity].
  Qed.
  Lemma model_graphs m1 m2 model_iri : reorder_model m1 m2 -> (forall s, In s (shapes m1) -> few_identifiers (ts_body s)) ->
    exists g1 g2, model_to_rdf f64_str m1 model_iri = (g1, None) /\ model_to_rdf f64_str m2 model_iri = (g2, None)
      /\ same_graph (g_statements g1) (g_statements g2).
  Proof.
    intros (_ & _ & RS) FI.
    set (subject := match model_iri with None => TBlank 0 | Some i => TIri i end).
    set (first := match model_iri with None => 1 | Some _ => 0 end).
    set (hd := [St subject (smithy "smithy_version") (literal (lit "1.0")); St subject a_type (TIri (smithy "Model"))]).
    assert (G : forall m, model_to_rdf f64_str m model_iri
                = (Graph (hd ++ fst (all_statements f64_str subject (shapes m) first)) (snd (all_statements f64_str subject (shapes m) first)), None)).
    { intros m. unfold model_to_rdf, hd, subject, first. destruct model_iri as [i|]; cbn [g_blank]; rewrite walk_put; cbn [g_insert g_next g_statements];
        destruct (all_statements f64_str _ (shapes m) _); reflexivity. }
    assert (S : same_block (seqb (map sblk (shapes m1))) (seqb (map sblk (shapes m2)))).
    { destruct RS as (c & P & F). unfold shapes, hm_values in *.
      assert (GD : Forall good (map sblk (map snd (m_shapes m1)))).
      { apply Forall_forall. intros b J. apply in_map_iff in J as (s & <- & J). split; [apply tidy_sblk|]. apply sblk_same; [apply FI, J|apply reorder_shape_refl]. }
      eapply same_trans; [apply good_tidy, GD|apply same_perm; [apply Permutation_map, Permutation_map, P|exact GD]|].
      apply same_forall2.
      assert (Fc : forall s, In s (map snd c) -> few_identifiers (ts_body s)).
      { intros s J. apply FI. exact (Permutation_in _ (Permutation_sym (Permutation_map snd P)) J). }
      clear -F Fc. induction F as [|[k x] [k' y] c r [_ Rxy] F IHF]; [constructor|]. cbn [map snd] in *. constructor.
      - apply sblk_same; [apply Fc; left; reflexivity|exact Rxy].
      - apply IHF. intros s J. apply Fc. right. exact J. }
    do 2 eexists. split; [apply G|]. split; [apply G|]. cbn [g_statements]. rewrite !all_seq.
    assert (L : below_node subject first) by (unfold subject, first; destruct model_iri; intros j Q; [discriminate Q|injection Q; lia]).
    destruct (S subject subject first first L L) as (k & f & E & E' & R & I & P).
    set (g := fun i => if Nat.leb first i && Nat.ltb i (first + k) then f i else i).
    assert (gin : forall i, first <= i < first + k -> g i = f i).
    { intros i Hi. unfold g. destruct (Nat.leb_spec first i); [|lia]. destruct (Nat.ltb_spec i (first + k)); [reflexivity|lia]. }
    assert (gout : forall i, ~ (first <= i < first + k) -> g i = i).
    { intros i Hi. unfold g. destruct (Nat.leb_spec first i); [|reflexivity]. destruct (Nat.ltb_spec i (first + k)); [lia|reflexivity]. }
    assert (gs : rename_term g subject = subject).
    { destruct subject as [|j|] eqn:Es; try reflexivity. cbn. rewrite gout; [reflexivity|]. specialize (L j eq_refl). lia. }
    exists g. split.
    - intros a b Q. destruct (Nat.leb_spec first a), (Nat.leb_spec first b), (Nat.lt_ge_cases a (first + k)), (Nat.lt_ge_cases b (first + k));
        rewrite ?(gin a), ?(gin b), ?(gout a), ?(gout b) in Q by lia; try (apply I; lia); try lia;
        try (pose proof (R a)); try (pose proof (R b)); lia.
    - intros st. rewrite map_app, !in_app_iff.
      assert (X : map (rename_statement g) hd = hd) by (unfold hd; cbn [map]; unfold rename_statement; cbn [st_subject st_predicate st_object]; rewrite gs; reflexivity).
      rewrite X. assert (Y : In st (fst (seqb (map sblk (shapes m2)) subject first)) <-> In st (map (rename_statement g) (fst (seqb (map sblk (shapes m1)) subject first)))).
      { specialize (P g gin gs). split; apply Permutation_in; [apply Permutation_sym|]; exact P. }
      tauto.
  Qed.
End Shapes.
