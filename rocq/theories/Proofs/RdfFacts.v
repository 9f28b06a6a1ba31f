(** The statements of the writer are the flattened descriptions; a graph determines descriptions. *)
From Verif.Model Require Import Rdf.
From Verif.Spec Require Import VisitorSpec RdfSpec.
From Verif.Proofs Require Import BaseFacts ValueFacts UrnFacts VisitorFacts.

(** ** Induction over descriptions *)
Fixpoint obj_ind' (P : obj -> Prop) (Ht : forall t, P (OTerm t))
  (Hn : forall ps, Forall (fun x => P (snd x)) ps -> P (ONode ps)) (o : obj) : P o :=
  match o with
  | OTerm t => Ht t
  | ONode ps => Hn ps ((fix go (l : description) : Forall (fun x => P (snd x)) l :=
                          match l with
                          | [] => Forall_nil _
                          | (p, x) :: l' => Forall_cons (p, x) (obj_ind' P Ht Hn x) (go l')
                          end) ps)
  end.

(** No blank nodes as terms. *)
Fixpoint clean (o : obj) : bool :=
  match o with
  | OTerm (TBlank _) => false
  | OTerm _ => true
  | ONode ps => forallb (fun x => clean (snd x)) ps
  end.
Definition clean_props (ps : description) : bool := forallb (fun x => clean (snd x)) ps.

(** ** Flattening *)
Definition flat_with (f : obj -> nat -> term -> iri -> list statement * nat) (s : term)
  : description -> nat -> list statement * nat :=
  fix go ps n :=
    match ps with
    | [] => ([], n)
    | (p, x) :: ps' => let (a, n1) := f x n s p in let (b, n2) := go ps' n1 in (a ++ b, n2)
    end.
Fixpoint flat_obj (o : obj) (n : nat) (s : term) (p : iri) : list statement * nat :=
  match o with
  | OTerm t => ([St s p t], n)
  | ONode ps => let (l, n') := flat_with flat_obj (TBlank n) ps (S n) in (St s p (TBlank n) :: l, n')
  end.
Notation flat_props s ps n := (flat_with flat_obj s ps n).
Definition head (o : obj) (n : nat) : term := match o with OTerm t => t | ONode _ => TBlank n end.

Lemma flat_range o : forall n s p l n', flat_obj o n s p = (l, n') ->
  n <= n' /\ (exists r, l = St s p (head o n) :: r
              /\ forall st, In st r -> exists k, st_subject st = TBlank k /\ n <= k < n').
Proof.
  induction o as [t|ps IH] using obj_ind'; intros n s p l n' E; cbn in E.
  - injection E as <- <-. split; [lia|]. exists []. split; [reflexivity|]. intros st [].
  - destruct (flat_with flat_obj (TBlank n) ps (S n)) as [r n1] eqn:F. injection E as <- <-.
    assert (Q : forall ps, Forall (fun x => forall n s p l n', flat_obj (snd x) n s p = (l, n') ->
                n <= n' /\ (exists r, l = St s p (head (snd x) n) :: r
                  /\ forall st, In st r -> exists k, st_subject st = TBlank k /\ n <= k < n')) ps ->
              forall m r n1, flat_with flat_obj (TBlank n) ps m = (r, n1) -> n < m -> m <= n1 /\ forall st, In st r -> exists k, st_subject st = TBlank k /\ n <= k < n1).
    { clear. intros ps IH. induction IH as [|[q x] ps Hx _ IHps]; intros m r n1 F L; cbn in F.
      - injection F as <- <-. split; [lia|]. intros st [].
      - destruct (flat_obj x m (TBlank n) q) as [a m1] eqn:Ea. destruct (flat_with flat_obj (TBlank n) ps m1) as [b m2] eqn:Eb.
        injection F as <- <-. destruct (Hx _ _ _ _ _ Ea) as (L1 & r0 & -> & R0).
        destruct (IHps _ _ _ Eb) as (L2 & R2); [lia|]. split; [lia|].
        intros st I. apply in_app_or in I as [[<-|I]|I].
        + exists n. cbn. split; [reflexivity|lia].
        + destruct (R0 _ I) as (k & -> & ?). exists k. split; [reflexivity|lia].
        + destruct (R2 _ I) as (k & -> & ?). exists k. split; [reflexivity|lia]. }
    destruct (Q ps IH _ _ _ F) as (L & R); [lia|]. split; [lia|]. exists r. split; [reflexivity|exact R].
Qed.
Lemma flat_props_range ps : forall s n l n', flat_props s ps n = (l, n') ->
  n <= n' /\ forall st, In st l -> st_subject st = s \/ exists k, st_subject st = TBlank k /\ n <= k < n'.
Proof.
  induction ps as [|[p x] ps IH]; intros s n l n' E; cbn in E.
  - injection E as <- <-. split; [lia|]. intros st [].
  - destruct (flat_obj x n s p) as [a n1] eqn:Ea. destruct (flat_with flat_obj s ps n1) as [b n2] eqn:Eb.
    injection E as <- <-. destruct (flat_range _ _ _ _ _ _ Ea) as (L1 & r & -> & R). destruct (IH _ _ _ _ Eb) as (L2 & R2).
    split; [lia|]. intros st I. apply in_app_or in I as [[<-|I]|I].
    + left. reflexivity.
    + right. destruct (R _ I) as (k & -> & ?). exists k. split; [reflexivity|lia].
    + destruct (R2 _ I) as [->|(k & -> & ?)]; [now left|right; exists k; split; [reflexivity|lia]].
Qed.

(** A graph that contains the flattened description and nothing else about its nodes. *)
Definition owns (g : list statement) (l : list statement) (n n' : nat) : Prop :=
  incl l g /\ forall k q t, n <= k < n' -> In (St (TBlank k) q t) g -> In (St (TBlank k) q t) l.
Definition below_node (s : term) (n : nat) : Prop := forall k, s = TBlank k -> k < n.
Lemma props_stand (g : list statement) ps :
  Forall (fun x => forall n s p l n', flat_obj (snd x) n s p = (l, n') -> clean (snd x) = true -> below_node s n ->
                   owns g l n n' -> stands_for g (head (snd x) n) (snd x)) ps ->
  forall n s l n', flat_props s ps n = (l, n') -> clean_props ps = true -> below_node s n -> owns g l n n' ->
    (forall p o, In (p, o) ps -> exists t, In (St s p t) l /\ stands_for g t o)
    /\ (forall p t, In (St s p t) l -> exists o, In (p, o) ps /\ stands_for g t o).
Proof.
  intros IH. induction IH as [|[p x] ps Hx _ IHps]; intros n s l n' E C B O; cbn in E.
  - injection E as <- <-. split; [intros ? ? []|intros ? ? []].
  - destruct (flat_obj x n s p) as [a n1] eqn:Ea. destruct (flat_with flat_obj s ps n1) as [b n2] eqn:Eb.
    injection E as <- <-. unfold clean_props in C. cbn [forallb snd] in C. apply andb_true_iff in C as [Cx Cp].
    destruct (flat_range _ _ _ _ _ _ Ea) as (L1 & r & Er & R). destruct (flat_props_range _ _ _ _ _ Eb) as (L2 & R2).
    destruct O as [O1 O2].
    assert (Sx : stands_for g (head x n) x).
    { apply (Hx _ _ _ _ _ Ea Cx B). split; [intros st I; apply O1, in_or_app; now left|].
      intros k q t K I. destruct (in_app_or _ _ _ (O2 k q t ltac:(lia) I)) as [I'|I']; [exact I'|exfalso].
      destruct (R2 _ I') as [X|(k' & X & K')]; cbn in X; [symmetry in X; apply B in X; lia|injection X as <-; lia]. }
    destruct (IHps _ _ _ _ Eb Cp) as [P1 P2].
    { intros k ->. specialize (B k eq_refl). lia. }
    { split; [intros st I; apply O1, in_or_app; now right|].
      intros k q t K I. destruct (in_app_or _ _ _ (O2 k q t ltac:(lia) I)) as [I'|I']; [exfalso|exact I'].
      rewrite Er in I'. destruct I' as [X|I']; [injection X as X _ _; apply B in X; lia|].
      destruct (R _ I') as (k' & X & K'). cbn in X. injection X as <-. lia. }
    split.
    + intros q o [X|I].
      * injection X as <- <-. exists (head x n). split; [|exact Sx]. apply in_or_app. left. rewrite Er. now left.
      * destruct (P1 _ _ I) as (t & I' & S'). exists t. split; [apply in_or_app; now right|exact S'].
    + intros q t I. apply in_app_or in I as [I|I].
      * rewrite Er in I. destruct I as [X|I].
        -- injection X as <- <-. exists x. split; [now left|exact Sx].
        -- destruct (R _ I) as (k & X & K). cbn in X. apply B in X. lia.
      * destruct (P2 _ _ I) as (o & I' & S'). exists o. split; [now right|exact S'].
Qed.
Lemma flat_stands (g : list statement) o : forall n s p l n', flat_obj o n s p = (l, n') -> clean o = true -> below_node s n ->
  owns g l n n' -> stands_for g (head o n) o.
Proof.
  induction o as [t|ps IH] using obj_ind'; intros n s p l n' E C B O.
  - cbn. apply sf_term. intros k ->. discriminate C.
  - cbn in E. destruct (flat_with flat_obj (TBlank n) ps (S n)) as [r n1] eqn:F. injection E as <- <-.
    assert (Rg := flat_props_range _ _ _ _ _ F). destruct Rg as [L R]. destruct O as [O1 O2].
    assert (Own : owns g r (S n) n1).
    { split; [intros st I; apply O1; now right|]. intros k q t K I.
      destruct (O2 k q t ltac:(lia) I) as [X|X]; [|exact X]. injection X as X _ _. apply B in X. lia. }
    destruct (props_stand g ps IH (S n) (TBlank n) r n1 F C) as [P1 P2]; [intros k X; injection X as <-; lia|exact Own|].
    cbn. apply sf_node.
    + intros q o I. destruct (P1 _ _ I) as (t & I' & S'). exists t. split; [apply O1; now right|exact S'].
    + intros q t I. apply P2. destruct (O2 n q t ltac:(lia) I) as [X|X]; [|exact X].
      injection X as X _ _. apply B in X. lia.
Qed.
Lemma flat_says (g : list statement) ps n s l n' :
  flat_props s ps n = (l, n') -> clean_props ps = true -> below_node s n -> owns g l n n' ->
  (forall p t, In (St s p t) g -> In (St s p t) l) -> says g s ps.
Proof.
  intros E C B O Own. destruct (props_stand g ps) with (n := n) (s := s) (l := l) (n' := n') as [P1 P2]; auto.
  { apply Forall_forall. intros x _. apply flat_stands. }
  split.
  - intros p o I. destruct (P1 _ _ I) as (t & I' & S'). exists t. split; [apply O; exact I'|exact S'].
  - intros p t I. apply P2, Own, I.
Qed.

(** ** A node stands for one description only *)
Inductive same_obj : obj -> obj -> Prop :=
| so_term t : same_obj (OTerm t) (OTerm t)
| so_node ps qs :
    (forall p o, In (p, o) ps -> exists o', In (p, o') qs /\ same_obj o o') ->
    (forall p o', In (p, o') qs -> exists o, In (p, o) ps /\ same_obj o o') ->
    same_obj (ONode ps) (ONode qs).
Definition same_props (ps qs : description) : Prop :=
  (forall p o, In (p, o) ps -> exists o', In (p, o') qs /\ same_obj o o')
  /\ (forall p o', In (p, o') qs -> exists o, In (p, o) ps /\ same_obj o o').
Lemma stands_det g o : forall t o', stands_for g t o -> stands_for g t o' -> same_obj o o'.
Proof.
  induction o as [t0|ps IH] using obj_ind'; intros t o' A B.
  - inversion A as [t1 N|]; subst. inversion B as [t2 N2|n qs]; subst; [constructor|exfalso; now apply (N n)].
  - inversion A as [|n ps' A1 A2]; subst. inversion B as [t2 N2|n' qs B1 B2]; subst; [exfalso; now apply (N2 n)|].
    rewrite Forall_forall in IH. constructor.
    + intros p o I. destruct (A1 _ _ I) as (t & It & S1). destruct (B2 _ _ It) as (o' & I' & S2).
      exists o'. split; [exact I'|]. exact (IH (p, o) I _ _ S1 S2).
    + intros p o' I. destruct (B1 _ _ I) as (t & It & S1). destruct (A2 _ _ It) as (o & I' & S2).
      exists o. split; [exact I'|]. exact (IH (p, o) I' _ _ S2 S1).
Qed.
Lemma says_det g s ps qs : says g s ps -> says g s qs -> same_props ps qs.
Proof.
  intros [A1 A2] [B1 B2]. split.
  - intros p o I. destruct (A1 _ _ I) as (t & It & S1). destruct (B2 _ _ It) as (o' & I' & S2).
    exists o'. split; [exact I'|]. exact (stands_det _ _ _ _ S1 S2).
  - intros p o' I. destruct (B1 _ _ I) as (t & It & S1). destruct (A2 _ _ It) as (o & I' & S2).
    exists o. split; [exact I'|]. exact (stands_det _ _ _ _ S2 S1).
Qed.

(** ** Renaming blank nodes *)
Section Rename.
  Variables (f : nat -> nat) (g h : list statement).
  Hypothesis inj : forall a b, f a = f b -> a = b.
  Hypothesis same : forall s, In s h <-> In s (map (rename_statement f) g).
  Lemma rename_inj a b : rename_term f a = rename_term f b -> a = b.
  Proof. destruct a, b; cbn; intros E; try discriminate; try (injection E as E); try (injection E as E ?); subst; try reflexivity; try congruence. apply inj in E. congruence. Qed.
  Lemma rename_in s p t : In (St (rename_term f s) p t) h -> exists t', t = rename_term f t' /\ In (St s p t') g.
  Proof.
    intros I. apply same, in_map_iff in I as ([s' p' t'] & E & I). unfold rename_statement in E. cbn in E. injection E as E1 E2 E3.
    apply rename_inj in E1. subst. exists t'. split; [reflexivity|exact I].
  Qed.
  Lemma rename_in' s p t : In (St s p t) g -> In (St (rename_term f s) p (rename_term f t)) h.
  Proof. intros I. apply same, in_map_iff. exists (St s p t). split; [reflexivity|exact I]. Qed.
  Lemma stands_rename o : forall t, stands_for g t o -> stands_for h (rename_term f t) o.
  Proof.
    induction o as [t0|ps IH] using obj_ind'; intros t A.
    - inversion A as [t1 N|]; subst. destruct t0; cbn; try (constructor; discriminate). exfalso. now apply (N n).
    - inversion A as [|n ps' A1 A2]; subst. rewrite Forall_forall in IH. cbn. constructor.
      + intros p o I. destruct (A1 _ _ I) as (t & It & S1). exists (rename_term f t).
        split; [exact (rename_in' (TBlank n) p t It)|exact (IH (p, o) I _ S1)].
      + intros p t I. apply (rename_in (TBlank n)) in I as (t' & -> & I). destruct (A2 _ _ I) as (o & Io & S1).
        exists o. split; [exact Io|exact (IH (p, o) Io _ S1)].
  Qed.
  Lemma says_rename s ps : says g s ps -> says h (rename_term f s) ps.
  Proof.
    intros [A1 A2]. split.
    - intros p o I. destruct (A1 _ _ I) as (t & It & S1). exists (rename_term f t). split; [apply rename_in'; exact It|apply stands_rename, S1].
    - intros p t I. apply rename_in in I as (t' & -> & I). destruct (A2 _ _ I) as (o & Io & S1).
      exists o. split; [exact Io|apply stands_rename, S1].
  Qed.
End Rename.

(** ** The writer flattens descriptions *)
Definition put (g : graph) (r : list statement * nat) : graph := Graph (g_statements g ++ fst r) (snd r).
Section Writer.
  Variable f64_str : Z -> str.
  Notation value_obj := (value_obj f64_str).
  Notation from_value := (from_value f64_str).
  Lemma insert_put g s p t : g_insert g s p t = put g (flat_obj (OTerm t) (g_next g) s p).
  Proof. reflexivity. Qed.
  Lemma put_put g a b n : put (put g (a, n)) b = put g (a ++ fst b, snd b).
  Proof. destruct b as [b m]. unfold put. cbn. rewrite <- app_assoc. reflexivity. Qed.
  Lemma put_cons g s p t r : put (g_insert g s p t) r = put g (St s p t :: fst r, snd r).
  Proof. unfold g_insert, put. cbn. rewrite <- app_assoc. reflexivity. Qed.
  Lemma put_node g s p ps :
    put (g_insert (snd (g_blank g)) s p (fst (g_blank g))) (flat_props (TBlank (g_next g)) ps (S (g_next g)))
    = put g (flat_obj (ONode ps) (g_next g) s p).
  Proof. rewrite put_cons. cbn. destruct (flat_with flat_obj (TBlank (g_next g)) ps (S (g_next g))). reflexivity. Qed.
  Lemma put_nil g : put g ([], g_next g) = g.
  Proof. destruct g. unfold put. cbn. rewrite app_nil_r. reflexivity. Qed.
  Lemma put_app g s ps qs :
    put g (flat_props s (ps ++ qs) (g_next g))
    = let g' := put g (flat_props s ps (g_next g)) in put g' (flat_props s qs (g_next g')).
  Proof.
    revert g. induction ps as [|[p x] ps IH]; intros g; cbn [app flat_with].
    - rewrite put_nil. reflexivity.
    - destruct (flat_obj x (g_next g) s p) as [a n1] eqn:Ea. specialize (IH (put g (a, n1))). cbn zeta in IH.
      change (g_next (put g (a, n1))) with n1 in IH.
      destruct (flat_with flat_obj s (ps ++ qs) n1) as [b n2] eqn:Eb. destruct (flat_with flat_obj s ps n1) as [c n3] eqn:Ec.
      rewrite put_put in IH. cbn [fst snd] in IH. rewrite IH. rewrite !put_put. cbn [fst snd].
      change (g_next (put g (a ++ c, n3))) with n3. change (g_next (put g (a, n1))) with n1.
      cbn [fst snd] in *. change (g_next (put g (a ++ c, n3))) with n3. destruct (flat_with flat_obj s qs n3) as [d n4].
      cbn. rewrite app_assoc. reflexivity.
  Qed.
  Lemma put_one g s p o ps :
    put g (flat_props s ((p, o) :: ps) (g_next g))
    = let g' := put g (flat_obj o (g_next g) s p) in put g' (flat_props s ps (g_next g')).
  Proof.
    cbn [flat_with]. destruct (flat_obj o (g_next g) s p) as [a n1]. cbn. destruct (flat_with flat_obj s ps n1) as [b n2].
    rewrite put_put. reflexivity.
  Qed.
  Lemma put_one' g n s p o ps : n = g_next g ->
    put g (flat_props s ((p, o) :: ps) n) = (let g' := put g (flat_obj o n s p) in put g' (flat_props s ps (g_next g'))).
  Proof. intros ->. apply put_one. Qed.
  Lemma put_app' g n s ps qs : n = g_next g ->
    put g (flat_props s (ps ++ qs) n)
    = (let g' := put g (flat_props s ps n) in put g' (flat_props s qs (g_next g'))).
  Proof. intros ->. apply put_app. Qed.
  Lemma put_done g n s : n = g_next g -> put g (flat_props s [] n) = g.
  Proof. intros ->. apply put_nil. Qed.
  Lemma fold_put {A} (F : graph -> A -> graph) (h : A -> iri * obj) s (l : list A) :
    (forall x g, In x l -> F g x = put g (flat_obj (snd (h x)) (g_next g) s (fst (h x)))) ->
    forall g, fold_left F l g = put g (flat_props s (map h l) (g_next g)).
  Proof.
    induction l as [|x l IH]; intros HF g; cbn [fold_left map].
    - cbn. rewrite put_nil. reflexivity.
    - rewrite IH by (intros; apply HF; now right). rewrite HF by now left. destruct (h x) as [p o]. cbn [fst snd].
      rewrite put_one. reflexivity.
  Qed.
  Lemma from_value_put v : forall g s p, from_value v g s p = put g (flat_obj (value_obj v) (g_next g) s p).
  Proof.
    induction v as [vs IH|vs IH|[n|b]|b|x|] using value_ind'; intros g s p; try reflexivity.
    - cbn [Rdf.from_value RdfSpec.value_obj]. rewrite <- put_node. unfold g_blank. cbn [fst snd].
      rewrite (fold_put _ (fun x => (rdf "li", value_obj x)) (TBlank (g_next g))).
      + rewrite (insert_put _ (TBlank (g_next g)) a_type).
        symmetry. exact (put_one (g_insert _ _ _ _) (TBlank (g_next g)) a_type _ _).
      + intros x g' I. rewrite Forall_forall in IH. exact (IH x I g' _ _).
    - cbn [Rdf.from_value RdfSpec.value_obj]. rewrite <- put_node. unfold g_blank. cbn [fst snd].
      rewrite (fold_put _ (fun kv : str * value => (rdf "li", ONode [(smithy "key", text (fst kv)); (smithy "value", value_obj (snd kv))])) (TBlank (g_next g))).
      + rewrite (insert_put _ (TBlank (g_next g)) a_type).
        symmetry. exact (put_one (g_insert _ _ _ _) (TBlank (g_next g)) a_type _ _).
      + intros [k x] g' I. rewrite Forall_forall in IH. cbn [fst snd]. rewrite <- put_node. unfold g_blank. cbn [fst snd].
        rewrite put_one' by reflexivity. cbn zeta. rewrite put_one' by reflexivity. cbn zeta. rewrite put_done by reflexivity.
        rewrite (IH (k, x) I). reflexivity.
  Qed.

  Notation from_traits := (from_traits f64_str).
  Notation from_member := (from_member f64_str).
  Lemma from_traits_put ts g s : from_traits ts g s = put g (flat_props s (trait_properties f64_str ts) (g_next g)).
  Proof.
    unfold Rdf.from_traits, trait_properties. apply fold_put. intros [id v] g' _. cbn [fst snd].
    unfold trait_obj. rewrite <- put_node. unfold g_blank. cbn [fst snd].
    rewrite put_one' by reflexivity. cbn zeta. destruct v as [v|].
    - rewrite put_one' by reflexivity. cbn zeta. rewrite put_done by reflexivity. rewrite from_value_put. reflexivity.
    - rewrite put_done by reflexivity. reflexivity.
  Qed.
  Lemma from_member_put m g s :
    from_member m g s = put g (flat_obj (snd (member_property f64_str m)) (g_next g) s (fst (member_property f64_str m))).
  Proof.
    unfold Rdf.from_member, member_property. cbn [fst snd]. rewrite <- put_node. unfold g_blank. cbn [fst snd].
    rewrite put_one' by reflexivity. cbn zeta. rewrite put_one' by reflexivity. cbn zeta. rewrite from_traits_put. reflexivity.
  Qed.
  Lemma from_members_put (ms : list member_shape) g s :
    fold_left (fun g m => from_member m g s) ms g = put g (flat_props s (map (member_property f64_str) ms) (g_next g)).
  Proof. apply fold_put. intros m g' _. apply from_member_put. Qed.
  Lemma from_ids_put p l g s : from_ids p l g s = put g (flat_props s (ids_properties p l) (g_next g)).
  Proof. unfold from_ids, ids_properties. apply fold_put. reflexivity. Qed.
  Lemma from_id_put p o g s : from_id p o g s = put g (flat_props s (id_properties p o) (g_next g)).
  Proof. destruct o as [i|]; [|symmetry; apply put_nil]. unfold id_properties. rewrite put_one, put_done by reflexivity. reflexivity. Qed.
  Lemma from_identifier_list_put l : forall i g bag,
    from_identifier_list i l g bag = put g (flat_props bag (numbered i l) (g_next g)).
  Proof.
    induction l as [|[n t] l IH]; intros i g bag; [symmetry; apply put_nil|].
    cbn [from_identifier_list numbered]. rewrite put_one. cbn zeta. rewrite <- put_node. unfold g_blank. cbn [fst snd].
    rewrite IH. rewrite !put_one' by reflexivity. cbn zeta. rewrite !put_done by reflexivity. reflexivity.
  Qed.
  Lemma from_identifiers_put l g s :
    from_identifiers l g s = put g (flat_props s (identifiers_properties l) (g_next g)).
  Proof.
    destruct l as [|e l]; [symmetry; apply put_nil|]. unfold from_identifiers, identifiers_properties.
    rewrite put_one. cbn zeta. rewrite put_done by reflexivity. rewrite <- put_node. unfold g_blank. cbn [fst snd].
    rewrite put_one' by reflexivity. cbn zeta. rewrite from_identifier_list_put. reflexivity.
  Qed.

  (** One shape. *)
  Variable the_model : term.
  Definition shape_statements (s : shape) (n : nat) : list statement * nat :=
    if is_unresolved (ts_body s) then ([], n)
    else let (l, n') := flat_props (TIri (shape_to_iri (ts_id s))) (shape_description f64_str s) n in
         (St the_model (smithy "shape") (TIri (shape_to_iri (ts_id s))) :: l, n').
  Lemma start_put id c g :
    start the_model id c g
    = (TIri (shape_to_iri id),
       put (g_insert g the_model (smithy "shape") (TIri (shape_to_iri id)))
           (flat_obj (class c) (g_next g) (TIri (shape_to_iri id)) a_type)).
  Proof. reflexivity. Qed.
  Lemma answer_put s g : rdf_answer f64_str the_model (shape_call s) g = put g (shape_statements s (g_next g)).
  Proof.
    unfold shape_statements, shape_description. destruct s as [id ts b]. cbn [ts_id ts_body ts_traits].
    assert (Q : forall b', is_unresolved b = false -> forall g1,
              g1 = put (put (g_insert g the_model (smithy "shape") (TIri (shape_to_iri id)))
                            (flat_obj (class (kind_class b)) (g_next g) (TIri (shape_to_iri id)) a_type))
                     (flat_props (TIri (shape_to_iri id)) b' (g_next g)) ->
              from_traits ts g1 (TIri (shape_to_iri id))
              = put g (let (l, n') := flat_props (TIri (shape_to_iri id)) ((a_type, class (kind_class b)) :: b' ++ trait_properties f64_str ts) (g_next g) in
                       (St the_model (smithy "shape") (TIri (shape_to_iri id)) :: l, n'))).
    { intros b' _ g1 ->. rewrite from_traits_put.
      transitivity (put (g_insert g the_model (smithy "shape") (TIri (shape_to_iri id)))
         (flat_props (TIri (shape_to_iri id)) ((a_type, class (kind_class b)) :: b' ++ trait_properties f64_str ts) (g_next g))).
      - rewrite put_one' by reflexivity. cbn zeta. rewrite put_app' by reflexivity. reflexivity.
      - rewrite put_cons. destruct (flat_props _ _ (g_next g)) as [l n']. reflexivity. }
    destruct b; unfold shape_call; cbn [ts_id ts_body ts_traits rdf_answer is_unresolved body_properties];
      try rewrite start_put; cbv beta iota; try (apply Q; [reflexivity|]).
    - symmetry. apply put_done. reflexivity.
    - rewrite (surjective_pairing (member_property f64_str m)), put_one' by reflexivity. cbn zeta.
      rewrite put_done by reflexivity. rewrite from_member_put. reflexivity.
    - rewrite (surjective_pairing (member_property f64_str m)), put_one' by reflexivity. cbn zeta.
      rewrite put_done by reflexivity. rewrite from_member_put. reflexivity.
    - rewrite (surjective_pairing (member_property f64_str k)), put_one' by reflexivity. cbn zeta.
      rewrite (surjective_pairing (member_property f64_str v)), put_one' by reflexivity. cbn zeta.
      rewrite put_done by reflexivity. rewrite (from_member_put k), (from_member_put v). reflexivity.
    - rewrite from_members_put. unfold hm_values. rewrite map_map. reflexivity.
    - rewrite from_members_put. unfold hm_values. rewrite map_map. reflexivity.
    - rewrite put_one' by reflexivity. cbn zeta. rewrite put_app' by reflexivity. cbn zeta. rewrite !from_ids_put. reflexivity.
    - repeat (rewrite put_app' by reflexivity; cbn zeta). repeat rewrite from_id_put. rewrite from_ids_put. reflexivity.
    - repeat (rewrite put_app' by reflexivity; cbn zeta). rewrite from_identifiers_put. repeat rewrite from_id_put.
      repeat rewrite from_ids_put. reflexivity.
    - symmetry. apply put_nil.
  Qed.
  (** All shapes. *)
  Fixpoint all_statements (l : list shape) (n : nat) : list statement * nat :=
    match l with
    | [] => ([], n)
    | s :: l' => let (a, n1) := shape_statements s n in let (b, n2) := all_statements l' n1 in (a ++ b, n2)
    end.
  Lemma walk_put m g : walk_model m (rdf_visitor f64_str the_model) g = (put g (all_statements (shapes m) (g_next g)), None).
  Proof.
    rewrite walk_model_run. unfold expected_calls. cbn [has_members rdf_visitor].
    rewrite run_app. unfold then_.
    assert (M : forall l g, run (rdf_visitor f64_str the_model) (map (fun kv : str * value => CMetadata (fst kv) (snd kv)) l) g = (g, None)).
    { clear. induction l as [|kv l IH]; intros g; [reflexivity|]. cbn. apply IH. }
    rewrite M. unfold shapes, hm_values. generalize (m_shapes m). intros l. revert g.
    induction l as [|[k s] l IH]; intros g; cbn [flat_map map snd app all_statements].
    - cbn. rewrite put_nil. reflexivity.
    - cbn [run answer rdf_visitor]. unfold then_. cbv beta iota. rewrite answer_put, IH.
      destruct (shape_statements s (g_next g)) as [a n1] eqn:E. change (g_next (put g (a, n1))) with n1.
      destruct (all_statements (map snd l) n1) as [b n2]. rewrite put_put. reflexivity.
  Qed.

  Lemma clean_value v : clean (value_obj v) = true.
  Proof.
    induction v as [vs IH|vs IH|[n|b]|b|x|] using value_ind'; try reflexivity;
      cbn [RdfSpec.value_obj clean forallb rdf_class snd andb]; rewrite forallb_forall; intros x I;
      apply in_map_iff in I as (y & <- & I); rewrite Forall_forall in IH; specialize (IH _ I); cbn; rewrite IH; reflexivity.
  Qed.
  Lemma clean_traits ts : clean_props (trait_properties f64_str ts) = true.
  Proof.
    apply forallb_forall. intros x I. apply in_map_iff in I as (y & <- & I). unfold trait_obj, named. cbn [snd clean forallb andb].
    destruct (snd y); cbn [forallb snd]; [rewrite clean_value|]; reflexivity.
  Qed.
  Lemma clean_member m : clean (snd (member_property f64_str m)) = true.
  Proof. cbn. apply clean_traits. Qed.
  Lemma clean_app a b : clean_props (a ++ b) = clean_props a && clean_props b.
  Proof. apply forallb_app. Qed.
  Lemma clean_ids p l : clean_props (ids_properties p l) = true.
  Proof. apply forallb_forall. intros x I. apply in_map_iff in I as (y & <- & _). reflexivity. Qed.
  Lemma clean_id p o : clean_props (id_properties p o) = true.
  Proof. destruct o; reflexivity. Qed.
  Lemma clean_numbered l : forall i, clean_props (numbered i l) = true.
  Proof. induction l as [|[n t] l IH]; intros i; [reflexivity|]. apply IH. Qed.
  Lemma clean_identifiers l : clean_props (identifiers_properties l) = true.
  Proof. destruct l as [|e l]; [reflexivity|]. unfold identifiers_properties. unfold clean_props. cbn [forallb snd clean rdf_class andb]. rewrite andb_true_r. apply (clean_numbered (e :: l)). Qed.
  Lemma clean_members (ms : members) : clean_props (map (fun e => member_property f64_str (snd e)) ms) = true.
  Proof. apply forallb_forall. intros x I. apply in_map_iff in I as (y & <- & _). apply clean_member. Qed.
  Lemma clean_shape s : clean_props (shape_description f64_str s) = true.
  Proof.
    unfold shape_description. change (clean_props (?x :: ?l)) with (clean (snd x) && clean_props l). cbn [snd clean class andb].
    rewrite clean_app, clean_traits, andb_true_r. destruct (ts_body s); cbn [body_properties].
    - reflexivity.
    - cbn. rewrite andb_true_r. apply clean_traits.
    - cbn. rewrite andb_true_r. apply clean_traits.
    - cbn. rewrite andb_true_r. fold (clean_props (trait_properties f64_str (ms_traits k))). rewrite clean_traits. apply clean_traits.
    - apply clean_members.
    - apply clean_members.
    - change (clean_props (?x :: ?l)) with (clean (snd x) && clean_props l). cbn [snd clean text andb].
      rewrite clean_app, !clean_ids. reflexivity.
    - rewrite !clean_app, !clean_id, clean_ids. reflexivity.
    - rewrite !clean_app, !clean_id, !clean_ids, clean_identifiers. reflexivity.
    - reflexivity.
  Qed.

  (** Whose statements are whose. *)
  Definition urn (s : shape) : term := TIri (shape_to_iri (ts_id s)).
  Definition is_resolved (s : shape) : bool := negb (is_unresolved (ts_body s)).
  Lemma all_range l : forall n L n', all_statements l n = (L, n') ->
    n <= n' /\ forall st, In st L ->
      (exists s, In s l /\ is_resolved s = true /\ st = St the_model (smithy "shape") (urn s))
      \/ (exists s, In s l /\ is_resolved s = true /\ st_subject st = urn s)
      \/ (exists k, st_subject st = TBlank k /\ n <= k < n').
  Proof.
    induction l as [|s l IH]; intros n L n' E; cbn in E.
    - injection E as <- <-. split; [lia|]. intros st [].
    - destruct (shape_statements s n) as [a n1] eqn:Ea. destruct (all_statements l n1) as [b n2] eqn:Eb.
      injection E as <- <-. destruct (IH _ _ _ Eb) as (L2 & R2).
      unfold shape_statements in Ea. destruct (is_unresolved (ts_body s)) eqn:U.
      + injection Ea as <- <-. split; [lia|]. intros st I. cbn in I. destruct (R2 _ I) as [(x & ? & ?)|[(x & ? & ?)|(k & ? & ?)]].
        * left. exists x. split; [now right|assumption].
        * right. left. exists x. split; [now right|assumption].
        * right. right. exists k. split; [assumption|lia].
      + destruct (flat_props (TIri (shape_to_iri (ts_id s))) (shape_description f64_str s) n) as [d m] eqn:Ed.
        injection Ea as <- <-. destruct (flat_props_range _ _ _ _ _ Ed) as (L1 & R1). split; [lia|].
        assert (Rs : is_resolved s = true) by (unfold is_resolved; rewrite U; reflexivity).
        intros st I. apply in_app_or in I as [[<-|I]|I].
        * left. exists s. split; [now left|]. split; [exact Rs|reflexivity].
        * right. destruct (R1 _ I) as [->|(k & -> & ?)]; [left; exists s; split; [now left|]; split; [exact Rs|reflexivity]|right; exists k; split; [reflexivity|lia]].
        * destruct (R2 _ I) as [(x & ? & ?)|[(x & ? & ?)|(k & ? & ?)]].
          -- left. exists x. split; [now right|assumption].
          -- right. left. exists x. split; [now right|assumption].
          -- right. right. exists k. split; [assumption|lia].
  Qed.
  Lemma all_starts l : forall n L n', all_statements l n = (L, n') ->
    forall s, In s l -> is_resolved s = true -> In (St the_model (smithy "shape") (urn s)) L.
  Proof.
    induction l as [|x l IH]; intros n L n' E s I R; [destruct I|]. destruct I as [<-|I]; cbn in E;
      destruct (shape_statements x n) as [a n1] eqn:Ea; destruct (all_statements l n1) as [b n2] eqn:Eb; injection E as <- <-; apply in_or_app.
    - left. unfold shape_statements in Ea. unfold is_resolved in R. apply negb_true_iff in R. rewrite R in Ea.
      destruct (flat_props _ _ n) as [d m]. injection Ea as <- <-. now left.
    - right. exact (IH _ _ _ Eb s I R).
  Qed.
  Lemma all_says (g : list statement) l : forall n L n', all_statements l n = (L, n') -> owns g L n n' ->
    NoDup (map urn (filter is_resolved l)) ->
    (forall s q t, In s l -> is_resolved s = true -> In (St (urn s) q t) g -> In (St (urn s) q t) L) ->
    (forall s, In s l -> is_resolved s = true -> the_model <> urn s) -> below_node the_model n ->
    forall s, In s l -> is_resolved s = true -> says g (urn s) (shape_description f64_str s).
  Proof.
    induction l as [|s0 l IH]; intros n L n' E [O1 O2] ND OI NM B s I R; [destruct I|]. cbn in E.
    destruct (shape_statements s0 n) as [a n1] eqn:Ea. destruct (all_statements l n1) as [b n2] eqn:Eb.
    injection E as <- <-. destruct (all_range _ _ _ _ Eb) as (L2 & R2).
    assert (A : n <= n1 /\ (is_resolved s0 = false -> a = [])
                /\ (is_resolved s0 = true -> exists d, a = St the_model (smithy "shape") (urn s0) :: d
                      /\ flat_props (urn s0) (shape_description f64_str s0) n = (d, n1))).
    { unfold shape_statements in Ea. unfold is_resolved. destruct (is_unresolved (ts_body s0)); cbn.
      - injection Ea as <- <-. split; [lia|]. split; [reflexivity|discriminate].
      - destruct (flat_props (TIri (shape_to_iri (ts_id s0))) (shape_description f64_str s0) n) as [d m] eqn:Ed.
        injection Ea as <- <-. split; [apply (flat_props_range _ _ _ _ _ Ed)|]. split; [discriminate|]. intros _. exists d. split; [reflexivity|exact Ed]. }
    destruct A as (L1 & A0 & A1).
    assert (Bs : forall k q t, In (St (TBlank k) q t) b -> n1 <= k < n2 \/ the_model = TBlank k).
    { intros k q t X. destruct (R2 _ X) as [(x & _ & _ & Y)|[(x & _ & _ & Y)|(k' & Y & K)]].
      - injection Y as Y _ _. now right.
      - discriminate Y.
      - cbn in Y. injection Y as <-. now left. }
    assert (As : forall st, In st a -> st = St the_model (smithy "shape") (urn s0) \/ (is_resolved s0 = true /\ st_subject st = urn s0) \/ exists k, st_subject st = TBlank k /\ n <= k < n1).
    { intros st X. destruct (is_resolved s0) eqn:R0; [|rewrite (A0 eq_refl) in X; destruct X].
      destruct (A1 eq_refl) as (d & -> & Ed). destruct X as [<-|X]; [now left|]. right.
      destruct (flat_props_range _ _ _ _ _ Ed) as (_ & Rd). destruct (Rd _ X) as [Y|Y]; [left; split; [reflexivity|exact Y]|now right]. }
    destruct I as [<-|I].
    - destruct (A1 R) as (d & Ea' & Ed). apply (flat_says g _ n (urn s0) d n1 Ed (clean_shape s0)).
      + intros k X. discriminate X.
      + split; [intros st X; apply O1, in_or_app; left; rewrite Ea'; now right|].
        intros k q t K X. destruct (in_app_or _ _ _ (O2 k q t ltac:(lia) X)) as [Y|Y].
        * rewrite Ea' in Y. destruct Y as [Y|Y]; [|exact Y]. injection Y as Y _ _. apply B in Y. lia.
        * apply Bs in Y as [Y|Y]; [lia|]. apply B in Y. lia.
      + intros q t X. destruct (in_app_or _ _ _ (OI s0 q t (or_introl eq_refl) R X)) as [Y|Y].
        * rewrite Ea' in Y. destruct Y as [Y|Y]; [|exact Y]. injection Y as Y _ _. now apply (NM s0 (or_introl eq_refl) R) in Y.
        * exfalso. cbn in ND. rewrite R in ND. cbn in ND. inversion ND as [|? ? N1 _]; subst. apply N1.
          destruct (R2 _ Y) as [(x & _ & _ & Z)|[(x & Ix & Rx & Z)|(k & Z & _)]].
          -- injection Z as Z _ _. symmetry in Z. now apply (NM s0 (or_introl eq_refl) R) in Z.
          -- cbn in Z. rewrite Z. apply in_map. apply filter_In. split; assumption.
          -- discriminate Z.
    - apply (IH _ _ _ Eb).
      + split; [intros st X; apply O1, in_or_app; now right|].
        intros k q t K X. destruct (in_app_or _ _ _ (O2 k q t ltac:(lia) X)) as [Y|Y]; [|exact Y].
        destruct (As _ Y) as [Z|[[_ Z]|(k' & Z & K')]].
        * injection Z as Z _ _. symmetry in Z. apply B in Z. lia.
        * discriminate Z.
        * cbn in Z. injection Z as <-. lia.
      + cbn in ND. destruct (is_resolved s0); [inversion ND; assumption|exact ND].
      + intros s1 q t I1 R1 X. destruct (in_app_or _ _ _ (OI s1 q t (or_intror I1) R1 X)) as [Y|Y]; [|exact Y].
        exfalso. destruct (As _ Y) as [Z|[[R0 Z]|(k' & Z & K')]].
        * injection Z as Z _ _. symmetry in Z. now apply (NM s1 (or_intror I1) R1) in Z.
        * cbn in Z. cbn in ND. rewrite R0 in ND. cbn in ND. inversion ND as [|? ? N1 _]; subst. apply N1. rewrite <- Z.
          apply in_map, filter_In. split; assumption.
        * discriminate Z.
      + intros s1 I1 R1. apply NM; [now right|exact R1].
      + intros k K. specialize (B k K). lia.
      + exact I.
      + exact R.
  Qed.
End Writer.
