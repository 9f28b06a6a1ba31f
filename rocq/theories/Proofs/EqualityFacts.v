(** [==] on values, shapes and models. *)
From Verif.Model Require Import SemModel.
From Verif.Spec Require Import EqualitySpec.
From Verif.Proofs Require Import BaseFacts IdentityFacts HashMapFacts ValueFacts ShapeFacts MultiMergeFacts MergeOrderFacts.

(** ** Values *)
Section SameValueInd.
  Variable P : value -> value -> Prop.
  Hypothesis HA : forall l r, Forall2 (fun a b => same_value a b /\ P a b) l r -> P (VArray l) (VArray r).
  Hypothesis HO : forall l r, (forall k, lookup k l = None <-> lookup k r = None) ->
    (forall k v w, lookup k l = Some v -> lookup k r = Some w -> same_value v w /\ P v w) -> P (VObject l) (VObject r).
  Hypothesis HI : forall n, P (VNumber (NInteger n)) (VNumber (NInteger n)).
  Hypothesis HF : forall a b, same_float a b -> P (VNumber (NFloat a)) (VNumber (NFloat b)).
  Hypothesis HB : forall b, P (VBoolean b) (VBoolean b).
  Hypothesis HS : forall s, P (VString s) (VString s).
  Hypothesis HN : P VNone VNone.
  Fixpoint same_value_ind' a b (h : same_value a b) : P a b :=
    match h with
    | sv_array l r F =>
        HA l r ((fix go l r (F : Forall2 same_value l r) : Forall2 (fun a b => same_value a b /\ P a b) l r :=
                   match F with
                   | Forall2_nil _ => Forall2_nil _
                   | Forall2_cons x y s t => Forall2_cons x y (conj s (same_value_ind' x y s)) (go _ _ t)
                   end) l r F)
    | sv_object l r K V => HO l r K (fun k v w E1 E2 => conj (V k v w E1 E2) (same_value_ind' v w (V k v w E1 E2)))
    | sv_int n => HI n
    | sv_float a b s => HF a b s
    | sv_bool b => HB b
    | sv_string s => HS s
    | sv_none => HN
    end.
End SameValueInd.

Lemma same_value_symm a b : same_value a b -> same_value b a.
Proof.
  induction 1 as [l r F|l r K V|n|x y F|b|s|] using same_value_ind'; constructor.
  - induction F as [|x y l r [_ S] F IH]; constructor; auto.
  - intros k. symmetry. apply K.
  - intros k v w E1 E2. exact (proj2 (V k w v E2 E1)).
  - apply same_float_sym, F.
Qed.
Lemma same_float_trans a b c : same_float a b -> same_float b c -> same_float a c.
Proof.
  intros (A1 & A2 & A3) (B1 & B2 & B3). split; [exact A1|]. split; [exact B2|].
  destruct A3 as [->|[A3 A4]]; [exact B3|]. destruct B3 as [<-|[B3 B4]]; auto.
Qed.
Lemma same_value_trans a b : same_value a b -> forall c, same_value b c -> same_value a c.
Proof.
  induction 1 as [l r F|l r K V|n|x y F|b|s|] using same_value_ind'; intros c S; inversion S; subst; try constructor.
  - match goal with h : Forall2 same_value r _ |- _ => rename h into G; clear S; revert G end.
    match goal with |- Forall2 _ r ?x -> _ => revert x end.
    induction F as [|x y l r [_ Sxy] F IH]; intros z G; inversion G; subst; constructor; auto.
  - intros k. rewrite K. auto.
  - intros k v w E1 E2. destruct (lookup k r) as [u|] eqn:Er.
    + apply (proj2 (V k v u E1 Er)). eauto.
    + apply K in Er. congruence.
  - eapply same_float_trans; eauto.
Qed.

Lemma nan_free_spec v : nan_free v <-> ~ has_nan v.
Proof.
  split.
  - induction v as [l IH|l IH|n|x|s|] using value_ind'; intros N C; inversion C; subst; inversion N; subst; try congruence.
    + rewrite Forall_forall in *. match goal with i : In ?v l, h : has_nan ?v, f : forall x, In x l -> nan_free x |- _ => exact (IH v i (f v i) h) end.
    + rewrite Forall_forall in *. match goal with i : In ?e l, h : has_nan _, f : forall x, In x l -> nan_free _ |- _ => exact (IH e i (f e i) h) end.
  - induction v as [l IH|l IH|n|x|s|] using value_ind'; intros N; try constructor.
    + rewrite Forall_forall in *. intros x I. apply IH; [exact I|]. intros C. apply N. econstructor; eauto.
    + rewrite Forall_forall in *. intros [k x] I. apply (IH _ I). intros C. apply N. econstructor; eauto.
    + destruct n as [n|f]; constructor. destruct (f64_is_nan f) eqn:E; [|reflexivity]. exfalso. apply N. constructor. exact E.
Qed.
Lemma same_value_self v : value_ok v -> (same_value v v <-> ~ has_nan v).
Proof. intros O. rewrite <- nan_free_spec. split; [apply same_value_nan_free, O|apply same_value_refl]. Qed.
Lemma has_nan_dec v : has_nan v \/ ~ has_nan v.
Proof.
  induction v as [l IH|l IH|n|x|s|] using value_ind'; try (right; inversion 1; fail).
  - induction IH as [|x l [D|D] F IHl]; [right; inversion 1; contradiction|left; eapply hn_array; [left; reflexivity|exact D]|].
    destruct IHl as [N|N]; [left; inversion N; subst; eapply hn_array; [right; eassumption|assumption]|].
    right. intros C. inversion C as [|l0 y I Y|]; subst. destruct I as [<-|I]; [contradiction|]. apply N. eapply hn_array; eauto.
  - induction IH as [|[k x] l [D|D] F IHl]; [right; inversion 1; contradiction|left; eapply hn_object; [left; reflexivity|exact D]|].
    destruct IHl as [N|N]; [left; inversion N; subst; eapply hn_object; [right; eassumption|assumption]|].
    right. intros C. inversion C as [| |l0 k' y I Y]; subst. destruct I as [E|I]; [injection E as <- <-; contradiction|]. apply N. eapply hn_object; eauto.
  - destruct n as [n|f]; [right; inversion 1|]. destruct (f64_is_nan f) eqn:E; [left; constructor; exact E|right; inversion 1; congruence].
Qed.

Section WithHasher.
  Context `{Hasher}.

  Lemma traits_eqb_spec a b : traits_maps a -> traits_maps b -> (traits_eqb a b = true <-> equal_traits a b).
  Proof.
    intros [Da Va] [Db Vb]. unfold traits_eqb, equal_traits, trait_named.
    apply (hm_eqb_spec sid_key_eqb sid_key_equiv); auto. intros k v w I G. apply option_eqb_spec. intros x y -> ->.
    apply hm_get_Some_In in G as (k' & I' & _). apply value_eqb_spec; eauto.
  Qed.
  Lemma ms_eqb_spec a b : traits_maps (ms_traits a) -> traits_maps (ms_traits b) -> (ms_eqb a b = true <-> equal_member a b).
  Proof.
    intros A B. unfold ms_eqb, equal_member. rewrite !andb_true_iff, ident_eqb_same, sid_eqb_same, traits_eqb_spec by assumption. tauto.
  Qed.
  Lemma members_eqb_spec a b : distinct ident_key_eqb a -> distinct ident_key_eqb b ->
    (forall m, In m (map snd a) -> traits_maps (ms_traits m)) -> (forall m, In m (map snd b) -> traits_maps (ms_traits m)) ->
    (hm_eqb ident_key_eqb ms_eqb a b = true <-> equal_members a b).
  Proof.
    intros Da Db A B. apply (hm_eqb_spec ident_key_eqb ident_key_equiv); auto. intros k v w I G.
    apply hm_get_Some_In in G as (k' & I' & _). apply ms_eqb_spec; [apply A|apply B].
    - apply (in_map snd) in I. exact I.
    - apply (in_map snd) in I'. exact I'.
  Qed.
  Lemma kind_eqb_spec a b : body_ok a -> body_ok b ->
    (forall m, In m (members_in a) -> traits_maps (ms_traits m)) -> (forall m, In m (members_in b) -> traits_maps (ms_traits m)) ->
    (kind_eqb a b = true <-> equal_body a b).
  Proof.
    intros Oa Ob A B.
    destruct a, b; cbn [kind_eqb body_ok members_in] in *; try (split; [discriminate|inversion 1]; fail).
    - rewrite simple_eqb_spec. split; [intros ->; constructor|inversion 1; reflexivity].
    - rewrite ms_eqb_spec by (first [apply A; left; reflexivity|apply B; left; reflexivity]). split; [constructor; assumption|inversion 1; assumption].
    - rewrite ms_eqb_spec by (first [apply A; left; reflexivity|apply B; left; reflexivity]). split; [constructor; assumption|inversion 1; assumption].
    - rewrite andb_true_iff, !ms_eqb_spec by (first [apply A; cbn; auto; fail|apply B; cbn; auto]). split; [intros []; constructor; assumption|inversion 1; auto].
    - rewrite members_eqb_spec by assumption. split; [constructor; assumption|inversion 1; assumption].
    - rewrite members_eqb_spec by assumption. split; [constructor; assumption|inversion 1; assumption].
    - rewrite service_eqb_spec by assumption. split; [constructor; assumption|inversion 1; assumption].
    - rewrite operation_eqb_spec. split; [constructor; assumption|inversion 1; assumption].
    - rewrite resource_eqb_spec by assumption. split; [constructor; assumption|inversion 1; assumption].
    - split; constructor.
  Qed.
  Lemma shape_eqb_spec a b : shape_maps a -> shape_maps b -> (shape_eqb a b = true <-> equal_shape a b).
  Proof.
    intros (Ta & Ba & Ma) (Tb & Bb & Mb). unfold shape_eqb, equal_shape.
    rewrite !andb_true_iff, sid_eqb_same, traits_eqb_spec, kind_eqb_spec by assumption. tauto.
  Qed.
  Lemma model_eqb_spec a b : model_maps a -> model_maps b -> (model_eqb a b = true <-> equal_model a b).
  Proof.
    intros (Da & Sa & Va & Ha) (Db & Sb & Vb & Hb). unfold model_eqb, equal_model. rewrite !andb_true_iff.
    rewrite (hm_eqb_spec str_eqb str_eqb_equiv value_eqb same_value); auto.
    - rewrite (hm_eqb_spec sid_key_eqb sid_key_equiv shape_eqb equal_shape); auto.
      + unfold metadata_value, model_shape. destruct (m_version a), (m_version b); cbn. tauto.
      + intros k v w I G. apply hm_get_Some_In in G as (k' & I' & _). apply shape_eqb_spec; eauto.
    - intros k v w I G. apply hm_get_Some_In in G as (k' & I' & _). apply value_eqb_spec; eauto.
  Qed.

  (** ** An equivalence, except for NaN *)
  Lemma equal_traits_sym a b : equal_traits a b -> equal_traits b a.
  Proof. intros E t. apply opt_rel_sym; [|apply E]. intros x y. apply opt_rel_sym, same_value_symm. Qed.
  Lemma equal_member_sym a b : equal_member a b -> equal_member b a.
  Proof. intros (A & B & C). split; [symmetry; exact A|]. split; [apply same_id_sym, B|apply equal_traits_sym, C]. Qed.
  Lemma equal_body_sym a b : equal_body a b -> equal_body b a.
  Proof.
    pose proof same_structure_sym as SS.
    destruct 1; constructor; auto using equal_member_sym; try (intros n; apply opt_rel_sym; [apply equal_member_sym|auto]).
    - assert (X : same_structure (KService b) (KService a)) by (apply SS; constructor; assumption). inversion X; assumption.
    - assert (X : same_structure (KOperation b) (KOperation a)) by (apply SS; constructor; assumption). inversion X; assumption.
    - assert (X : same_structure (KResource b) (KResource a)) by (apply SS; constructor; assumption). inversion X; assumption.
  Qed.
  Lemma equal_shape_sym a b : equal_shape a b -> equal_shape b a.
  Proof. intros (A & B & C). split; [apply same_id_sym, A|]. split; [apply equal_traits_sym, B|apply equal_body_sym, C]. Qed.
  Lemma equal_model_sym a b : equal_model a b -> equal_model b a.
  Proof.
    intros (A & B & C). split; [auto|]. split; intros k; apply opt_rel_sym; auto using same_value_symm, equal_shape_sym.
  Qed.
  Lemma equal_traits_trans a b c : equal_traits a b -> equal_traits b c -> equal_traits a c.
  Proof.
    intros A B t. eapply opt_rel_trans; [|apply A|apply B]. intros x y z. apply opt_rel_trans. intros. eapply same_value_trans; eauto.
  Qed.
  Lemma equal_member_trans a b c : equal_member a b -> equal_member b c -> equal_member a c.
  Proof.
    intros (A & B & C) (A' & B' & C'). split; [exact (same_name_trans _ _ _ A A')|]. split; [exact (same_id_trans _ _ _ B B')|exact (equal_traits_trans _ _ _ C C')].
  Qed.
  Lemma equal_body_trans a b c : equal_body a b -> equal_body b c -> equal_body a c.
  Proof.
    pose proof same_structure_trans as ST. pose proof equal_member_trans as EM.
    intros A B. inversion A; subst; inversion B; subst; constructor; eauto; try (intros n; eapply opt_rel_trans; eauto; fail).
    - match goal with |- same_service ?x ?y => assert (X : same_structure (KService x) (KService y)) by (eapply ST; constructor; eauto); inversion X; assumption end.
    - match goal with |- same_operation ?x ?y => assert (X : same_structure (KOperation x) (KOperation y)) by (eapply ST; constructor; eauto); inversion X; assumption end.
    - match goal with |- same_resource ?x ?y => assert (X : same_structure (KResource x) (KResource y)) by (eapply ST; constructor; eauto); inversion X; assumption end.
  Qed.
  Lemma equal_shape_trans a b c : equal_shape a b -> equal_shape b c -> equal_shape a c.
  Proof.
    intros (A & B & C) (A' & B' & C'). split; [exact (same_id_trans _ _ _ A A')|]. split; [exact (equal_traits_trans _ _ _ B B')|exact (equal_body_trans _ _ _ C C')].
  Qed.
  Lemma equal_model_trans a b c : equal_model a b -> equal_model b c -> equal_model a c.
  Proof.
    intros (A & B & C) (A' & B' & C'). split; [congruence|].
    split; intros k; eapply opt_rel_trans; eauto using same_value_trans, equal_shape_trans.
  Qed.

  Lemma equal_traits_self ts : traits_maps ts -> (equal_traits ts ts <-> ~ traits_nan ts).
  Proof.
    intros [D V]. split.
    - intros E (t & v & I & N). specialize (E t). unfold trait_named in E.
      rewrite (hm_get_In sid_key_eqb sid_key_equiv ts t (Some v) D I) in E. cbn in E. apply (same_value_self v (V _ _ I)) in E. auto.
    - intros N t. unfold trait_named. destruct (hm_get sid_key_eqb t ts) as [[v|]|] eqn:E; cbn; auto.
      apply hm_get_Some_In in E as (k & I & _). apply same_value_self; [eauto|]. intros C. apply N. exists k, v. auto.
  Qed.
  Lemma equal_member_self m : traits_maps (ms_traits m) -> (equal_member m m <-> ~ traits_nan (ms_traits m)).
  Proof.
    intros T. rewrite <- equal_traits_self by exact T. unfold equal_member. split; [tauto|]. intros E. split; [reflexivity|]. split; [apply same_id_refl|exact E].
  Qed.
  Lemma equal_body_self b : body_ok b -> (forall m, In m (members_in b) -> traits_maps (ms_traits m)) ->
    (equal_body b b <-> forall m, In m (members_in b) -> ~ traits_nan (ms_traits m)).
  Proof.
    intros O M.
    assert (SU : forall ms : members, distinct ident_key_eqb ms -> (forall m, In m (map snd ms) -> traits_maps (ms_traits m)) ->
       (equal_members ms ms <-> forall m, In m (map snd ms) -> ~ traits_nan (ms_traits m))).
    { intros ms D T. split.
      - intros E m I. assert (I' := I). apply in_map_iff in I' as ([n m'] & <- & I'). cbn in *. specialize (E n). unfold su_member in E.
        rewrite (hm_get_In ident_key_eqb ident_key_equiv ms n m' D I') in E. cbn in E. apply equal_member_self; auto.
      - intros N n. unfold su_member. destruct (hm_get ident_key_eqb n ms) as [m|] eqn:E; cbn; auto.
        apply hm_get_Some_In in E as (k & I & _). apply (in_map snd) in I. apply equal_member_self; [apply T|apply N]; exact I. }
    pose proof (same_structure_refl b) as SR.
    destruct b; cbn [body_ok members_in] in *.
    - split; [intros _ m []|constructor].
    - split; [inversion 1; subst; intros x [<-|[]]; apply equal_member_self; auto using in_eq|intros N; constructor; apply equal_member_self; auto using in_eq].
    - split; [inversion 1; subst; intros x [<-|[]]; apply equal_member_self; auto using in_eq|intros N; constructor; apply equal_member_self; auto using in_eq].
    - split; [inversion 1; subst; intros x [<-|[<-|[]]]; apply equal_member_self; auto using in_eq, in_cons|intros N; constructor; apply equal_member_self; auto using in_eq, in_cons].
    - rewrite <- SU by assumption. split; [inversion 1; assumption|constructor; assumption].
    - rewrite <- SU by assumption. split; [inversion 1; assumption|constructor; assumption].
    - split; [intros _ m []|constructor; inversion SR; assumption].
    - split; [intros _ m []|constructor; inversion SR; assumption].
    - split; [intros _ m []|constructor; inversion SR; assumption].
    - split; [intros _ m []|constructor].
  Qed.
  Lemma equal_shape_self s : shape_maps s -> (equal_shape s s <-> ~ shape_nan s).
  Proof.
    intros (T & O & M). unfold equal_shape, shape_nan. rewrite equal_traits_self, equal_body_self by assumption. split.
    - intros (_ & A & B) [C|(m & I & C)]; [auto|exact (B m I C)].
    - intros N. split; [apply same_id_refl|]. split; [tauto|]. intros m I C. apply N. eauto.
  Qed.
  Lemma equal_model_self m : model_maps m -> (equal_model m m <-> ~ model_nan m).
  Proof.
    intros (D & S & V & Sh). split.
    - intros (_ & A & B) [(k & v & I & N)|(k & s & I & N)].
      + specialize (A k). unfold metadata_value in A. rewrite (hm_get_In str_eqb str_eqb_equiv _ k v D I) in A. cbn in A.
        apply (same_value_self v) in A; eauto.
      + specialize (B k). unfold model_shape in B. rewrite (hm_get_In sid_key_eqb sid_key_equiv _ k s S I) in B. cbn in B.
        apply (equal_shape_self s) in B; eauto.
    - intros N. split; [reflexivity|]. split.
      + intros k. destruct (metadata_value m k) as [v|] eqn:E; cbn; auto. apply hm_get_Some_In in E as (k' & I & _).
        apply same_value_self; [eauto|]. intros C. apply N. left. eauto.
      + intros k. destruct (model_shape m k) as [s|] eqn:E; cbn; auto. apply hm_get_Some_In in E as (k' & I & _).
        apply equal_shape_self; [eauto|]. intros C. apply N. right. eauto.
  Qed.
End WithHasher.
