(** Documents with any members and fields: what their statements are read as. *)
From Verif.Model Require Import SelectorParse SmithyParse SmithyWrite Builder.
From Verif.Spec Require Import IdlFaultSpec.
From Verif.Proofs Require Import BaseFacts HashMapFacts IdentityFacts ValueFacts PegFacts SmithyGrammarFacts SmithyValueFacts SmithyTraitFacts SmithyShapeFacts SmithyFacts LayoutFacts LayoutParse ShapeFacts IdlValueFacts IdlShapeFacts IdlDocFacts.
From Verif.Proofs Require SelectorFacts SelectorGrammarFacts BuilderFacts.
From Verif.Props Require P24_Queries.

(** ** References *)
Lemma no_err {A} (r : result A) e : unwrap r <> Err e.
Proof. destruct r; discriminate. Qed.
Lemma unwrap_ok {A} (r : result A) a : unwrap r = Ok a <-> r = Ok a.
Proof. destruct r; cbn; split; congruence. Qed.
Lemma name_read s n : unwrap (shape_name_from_str s) = Ok n <-> valid_name n /\ name_text n = s.
Proof. rewrite unwrap_ok. apply (P24_Queries.C57_text s). Qed.
Lemma target_ok v n : target_of v = Ok n <-> reference v n.
Proof.
  unfold target_of, reference. destruct v; cbn [as_string rbind]; try (split; [discriminate|intros [_ X]; discriminate X]).
  rewrite name_read. split; intros [A B]; (split; [exact A|congruence]).
Qed.
Lemma target_err v e : target_of v <> Err e.
Proof. unfold target_of. destruct v; cbn [as_string rbind]; try discriminate. apply no_err. Qed.
Lemma target_panic v : target_of v = Panic -> no_reference v.
Proof. intros P n R. apply target_ok in R. congruence. Qed.
Lemma targets_ok v ns : targets_of v = Ok ns <-> exists vs, v = VArray vs /\ Forall2 reference vs ns.
Proof.
  unfold targets_of. destruct v as [vs| | | | |]; try (split; [discriminate|intros (? & X & _); discriminate X]).
  assert (K : map_result target_of vs = Ok ns <-> Forall2 reference vs ns).
  { revert ns. induction vs as [|x vs IH]; intros ns; cbn [map_result]; [split; [intros [= <-]; constructor|inversion 1; reflexivity]|].
    split.
    - destruct (target_of x) as [t|e|] eqn:T; cbn [rbind]; try discriminate. destruct (map_result target_of vs) as [ts|e|] eqn:M; cbn [rbind]; try discriminate.
      intros [= <-]. constructor; [apply target_ok, T|apply IH; reflexivity].
    - inversion 1 as [|? t ? ts R F]; subst. apply target_ok in R. apply IH in F. rewrite R, F. reflexivity. }
  rewrite K. split; [intros F; exists vs; auto|intros (? & [= <-] & F); exact F].
Qed.
Lemma targets_panic v : targets_of v = Panic -> bad_name_in v.
Proof.
  unfold targets_of. destruct v as [vs| | | | |]; try discriminate. intros P. exists vs.
  assert (K : exists x, In x vs /\ target_of x = Panic).
  { induction vs as [|x vs IH]; cbn [map_result] in P; [discriminate|]. destruct (target_of x) as [t|e|] eqn:T; cbn [rbind] in P; [|discriminate|exists x; split; [left; reflexivity|exact T]].
    destruct (map_result target_of vs) as [ts|e|]; cbn [rbind] in P; try discriminate. destruct (IH P) as (y & I & Y). exists y. split; [right|]; assumption. }
  destruct K as (x & I & T). exists x. split; [reflexivity|]. split; [exact I|apply target_panic, T].
Qed.
Section Facts.
  Variable f64_parse : str -> Z.
  Context `{Hasher}.

Definition ids_step (ids : list (str * shape_name)) (x : str * value) : result (list (str * shape_name)) :=
  t <- as_string (snd x) ;; i <- unwrap (ident_from_str (fst x)) ;; n <- unwrap (shape_name_from_str t) ;; Ok (hm_insert ident_key_eqb i n ids).
Lemma ids_step_ok ids x ids' : ids_step ids x = Ok ids' <-> exists n, is_identifier (fst x) /\ reference (snd x) n /\ ids' = hm_insert ident_key_eqb (fst x) n ids.
Proof.
  unfold ids_step, reference. destruct (snd x) as [| | | |t|]; cbn [as_string rbind]; try (split; [discriminate|intros (? & _ & [_ X] & _); discriminate X]).
  split.
  - destruct (unwrap (ident_from_str (fst x))) as [i|e|] eqn:I; cbn [rbind]; try discriminate.
    destruct (unwrap (shape_name_from_str t)) as [n|e|] eqn:N; cbn [rbind]; try discriminate. intros [= <-].
    apply unwrap_ok in I. apply name_read in N as [V <-]. unfold ident_from_str in I. destruct (ident_is_valid (fst x)) eqn:IV; [|discriminate]. injection I as <-.
    apply ident_is_valid_spec in IV. exists n. auto.
  - intros (n & I & [V [= ->]] & ->). unfold ident_from_str. apply ident_is_valid_spec in I. rewrite I. cbn [unwrap rbind].
    assert (N : unwrap (shape_name_from_str (name_text n)) = Ok n) by (apply name_read; auto). rewrite N. reflexivity.
Qed.
Lemma ids_step_panic ids x : ids_step ids x = Panic -> ~ is_identifier (fst x) \/ no_reference (snd x).
Proof.
  intros P. destruct (ident_is_valid (fst x)) eqn:IV.
  - right. intros n R. apply ident_is_valid_spec in IV. assert (X : ids_step ids x = Ok (hm_insert ident_key_eqb (fst x) n ids)) by (apply ids_step_ok; exists n; auto). congruence.
  - left. intros I. apply ident_is_valid_spec in I. congruence.
Qed.

(** ** Folds *)
Lemma fold_panic {S A} (f : S -> A -> result S) l : forall s, fold_result f l s = Panic -> exists s' x, In x l /\ f s' x = Panic.
Proof.
  induction l as [|x l IH]; intros s; cbn [fold_result]; [discriminate|]. destruct (f s x) as [s1|e|] eqn:F; cbn [rbind]; [|discriminate|].
  - intros P. destruct (IH _ P) as (s' & y & I & Y). exists s', y. split; [right|]; assumption.
  - intros _. exists s, x. split; [left; reflexivity|exact F].
Qed.
Definition named_in (vs : list (str * value)) (l : list (str * shape_name)) : Prop :=
  Forall2 (fun e x => is_identifier (fst e) /\ fst x = fst e /\ reference (snd e) (snd x)) vs l.
Lemma ids_ok vs : forall ids ids', fold_result ids_step vs ids = Ok ids' <-> exists l, named_in vs l /\ ids' = put_all l ids.
Proof.
  induction vs as [|x vs IH]; intros ids ids'; cbn [fold_result].
  - split; [intros [= <-]; exists []; split; [constructor|reflexivity]|intros (l & F & ->); inversion F; reflexivity].
  - split.
    + destruct (ids_step ids x) as [i1|e|] eqn:S; cbn [rbind]; try discriminate. intros F. apply IH in F as (l & F & ->). apply ids_step_ok in S as (n & I & R & ->).
      exists ((fst x, n) :: l). split; [constructor; auto|reflexivity].
    + intros (l & F & ->). inversion F as [|? [k n] ? l' (I & K & R) F']; subst. cbn [fst snd] in *. subst k.
      assert (S : ids_step ids x = Ok (hm_insert ident_key_eqb (fst x) n ids)) by (apply ids_step_ok; exists n; auto). rewrite S. cbn [rbind]. apply IH. exists l'. auto.
Qed.
Lemma ids_panic vs ids : fold_result ids_step vs ids = Panic -> bad_entry_in (VObject vs).
Proof. intros P. apply fold_panic in P as (s & [k x] & I & P). apply ids_step_panic in P. exists vs, k, x. auto. Qed.

(** ** Fields of an object *)
Lemma only_cons ks k v o : only ks ((k, v) :: o) <-> In k (map lit ks) /\ only ks o.
Proof.
  unfold only. split; [intros O; split; [apply (O k v); left; reflexivity|intros k' v' I; apply (O k' v'); right; exact I]|].
  intros [A B] k' v' [[= <- <-]|I]; [exact A|apply (B k' v'), I].
Qed.
Lemma field_none o k v : distinct str_eqb ((lit k, v) :: o) -> field_of o k = None.
Proof.
  intros [D _]. unfold field_of. destruct (hm_get str_eqb (lit k) o) as [x|] eqn:G; [|reflexivity]. exfalso. apply hm_get_Some_In in G as (k' & I & E).
  rewrite (D _ _ I) in E. discriminate.
Qed.
Lemma one_none o k n : field_of o k = None -> one_at o k n <-> n = None.
Proof. intros E. unfold one_at. rewrite E. tauto. Qed.
Lemma all_none o k n : field_of o k = None -> all_at o k n <-> n = [].
Proof. intros E. unfold all_at. rewrite E. tauto. Qed.
Lemma named_none o k n : field_of o k = None -> named_at o k n <-> n = [].
Proof. intros E. unfold named_at. rewrite E. tauto. Qed.

Ltac cases_of P := match type of P with context [if str_eqb ?a ?b then _ else _] => let K := fresh "K" in destruct (str_eqb a b) eqn:K; [apply str_eqb_eq in K; cbn [fst snd] in K; subst|] end.

(** *** Services *)
Definition service_keys : list string := ["version"; "operations"; "resources"]%string.
Lemma service_fields o : distinct str_eqb o -> forall v ops rs ren s,
  fold_result service_step o (SvB v ops rs ren) = Ok s
  <-> exists ops' rs', all_at o "operations" ops' /\ all_at o "resources" rs' /\ only service_keys o /\ s = SvB v (ops ++ ops') (rs ++ rs') ren.
Proof.
  induction o as [|[k x] o IH]; intros D v ops rs ren s; cbn [fold_result].
  - split; [intros [= <-]; exists [], []; rewrite !app_nil_r; repeat split; intros ? ? []|intros (a & b & A & B & _ & ->)].
    cbv [all_at field_of hm_get] in A, B. subst. rewrite !app_nil_r. reflexivity.
  - specialize (IH (proj2 D)). setoid_rewrite only_cons. unfold service_step at 1. cbn [fst snd].
    destruct (str_eqb k (lit "version")) eqn:K1; [apply str_eqb_eq in K1; subst k|].
    { cbn [rbind]. rewrite IH. split; intros (a & b & A & B & C); exists a, b; (split; [exact A|split; [exact B|]]); [destruct C; split; [split; [left; reflexivity|assumption]|assumption]|destruct C as [[_ C] E]; split; assumption]. }
    destruct (str_eqb k (lit "operations")) eqn:K2; [apply str_eqb_eq in K2; subst k|].
    { assert (FN := field_none _ _ _ D). split.
      - destruct (targets_of x) as [l|e|] eqn:T; cbn [rbind svb_version svb_operations svb_resources svb_renames]; try discriminate. rewrite IH. intros (a & b & A & B & C & ->).
        apply (all_none _ _ _ FN) in A. subst a. exists l, b. split; [apply targets_ok, T|]. split; [exact B|]. split; [split; [right; left; reflexivity|exact C]|]. rewrite app_nil_r. reflexivity.
      - intros (a & b & A & B & [_ C] & ->). assert (T : targets_of x = Ok a) by (apply targets_ok, A). rewrite T. cbn [rbind svb_version svb_operations svb_resources svb_renames]. apply IH.
        exists [], b. split; [apply (all_none _ _ _ FN); reflexivity|]. split; [exact B|]. split; [exact C|]. rewrite app_nil_r. reflexivity. }
    destruct (str_eqb k (lit "resources")) eqn:K3; [apply str_eqb_eq in K3; subst k|].
    { assert (FN := field_none _ _ _ D). split.
      - destruct (targets_of x) as [l|e|] eqn:T; cbn [rbind svb_version svb_operations svb_resources svb_renames]; try discriminate. rewrite IH. intros (a & b & A & B & C & ->).
        apply (all_none _ _ _ FN) in B. subst b. exists a, l. split; [exact A|]. split; [apply targets_ok, T|]. split; [split; [right; right; left; reflexivity|exact C]|]. rewrite app_nil_r. reflexivity.
      - intros (a & b & A & B & [_ C] & ->). assert (T : targets_of x = Ok b) by (apply targets_ok, B). rewrite T. cbn [rbind svb_version svb_operations svb_resources svb_renames]. apply IH.
        exists a, []. split; [exact A|]. split; [apply (all_none _ _ _ FN); reflexivity|]. split; [exact C|]. rewrite app_nil_r. reflexivity. }
    cbn [rbind unexpected]. split; [discriminate|]. intros (a & b & _ & _ & [[<- |[<- |[<- |[]]]] _] & _); rewrite str_eqb_refl in *; discriminate.
Qed.
Lemma service_panic o s : fold_result service_step o s = Panic -> bad_field [] ["operations"; "resources"]%string [] o.
Proof.
  intros P. apply fold_panic in P as (s' & [k x] & I & P). exists k, x. split; [exact I|]. right. left. unfold service_step in P. cbn [fst snd] in P.
  cases_of P; [discriminate|]. cases_of P; [|cases_of P; [|discriminate]].
  - destruct (targets_of x) as [|e|] eqn:T; try discriminate. split; [left; reflexivity|apply targets_panic, T].
  - destruct (targets_of x) as [|e|] eqn:T; try discriminate. split; [right; left; reflexivity|apply targets_panic, T].
Qed.

(** *** Operations and resources *)
Definition orelse {A} (n o : option A) : option A := match n with Some x => Some x | None => o end.

Definition operation_keys : list string := ["input"; "output"; "errors"]%string.
Lemma operation_fields o : distinct str_eqb o -> forall a0 a1 a2 s,
  fold_result operation_step o (OpB a0 a1 a2) = Ok s
  <-> exists n0 n1 n2, one_at o "input" n0 /\ one_at o "output" n1 /\ all_at o "errors" n2
      /\ only operation_keys o /\ s = OpB (orelse n0 a0) (orelse n1 a1) (a2 ++ n2).
Proof.
  induction o as [|[k x] o IH]; intros D a0 a1 a2 s; cbn [fold_result].
  - split; [intros [= <-]; exists None, None, []; rewrite ?app_nil_r; repeat split; intros ? ? []|intros (n0 & n1 & n2 & A0 & A1 & A2 & _ & ->)].
    cbv [all_at one_at named_at field_of hm_get] in A0, A1, A2. subst. rewrite ?app_nil_r. reflexivity.
  - specialize (IH (proj2 D)). setoid_rewrite only_cons. unfold operation_step at 1. cbn [fst snd].
    destruct (str_eqb k (lit "input")) eqn:K0; [apply str_eqb_eq in K0; subst k|].
    { assert (FN := field_none _ _ _ D). split.
      - destruct (target_of x) as [t|e|] eqn:T; cbn [rbind opb_input opb_output opb_errors]; try discriminate. rewrite IH. intros (n0 & n1 & n2 & A0 & A1 & A2 & C & ->).
        apply (one_none _ _ _ FN) in A0. subst n0. exists (Some t), n1, n2.
        split; [exists t; split; [reflexivity|apply target_ok, T]|].
        split; [exact A1|].
        split; [exact A2|].
        split; [split; [left; reflexivity|exact C]|]. rewrite ?app_nil_r. reflexivity.
      - intros (n0 & n1 & n2 & A0 & A1 & A2 & [_ C] & ->). destruct A0 as (t & -> & A0). assert (T : target_of x = Ok t) by (apply target_ok, A0). rewrite T. cbn [rbind opb_input opb_output opb_errors]. apply IH. exists None, n1, n2.
        split; [apply (one_none _ _ _ FN); reflexivity|].
        split; [exact A1|].
        split; [exact A2|].
        split; [exact C|]. rewrite ?app_nil_r. reflexivity. }
    destruct (str_eqb k (lit "output")) eqn:K1; [apply str_eqb_eq in K1; subst k|].
    { assert (FN := field_none _ _ _ D). split.
      - destruct (target_of x) as [t|e|] eqn:T; cbn [rbind opb_input opb_output opb_errors]; try discriminate. rewrite IH. intros (n0 & n1 & n2 & A0 & A1 & A2 & C & ->).
        apply (one_none _ _ _ FN) in A1. subst n1. exists n0, (Some t), n2.
        split; [exact A0|].
        split; [exists t; split; [reflexivity|apply target_ok, T]|].
        split; [exact A2|].
        split; [split; [right; left; reflexivity|exact C]|]. rewrite ?app_nil_r. reflexivity.
      - intros (n0 & n1 & n2 & A0 & A1 & A2 & [_ C] & ->). destruct A1 as (t & -> & A1). assert (T : target_of x = Ok t) by (apply target_ok, A1). rewrite T. cbn [rbind opb_input opb_output opb_errors]. apply IH. exists n0, None, n2.
        split; [exact A0|].
        split; [apply (one_none _ _ _ FN); reflexivity|].
        split; [exact A2|].
        split; [exact C|]. rewrite ?app_nil_r. reflexivity. }
    destruct (str_eqb k (lit "errors")) eqn:K2; [apply str_eqb_eq in K2; subst k|].
    { assert (FN := field_none _ _ _ D). split.
      - destruct (targets_of x) as [t|e|] eqn:T; cbn [rbind opb_input opb_output opb_errors]; try discriminate. rewrite IH. intros (n0 & n1 & n2 & A0 & A1 & A2 & C & ->).
        apply (all_none _ _ _ FN) in A2. subst n2. exists n0, n1, t.
        split; [exact A0|].
        split; [exact A1|].
        split; [apply targets_ok, T|].
        split; [split; [right; right; left; reflexivity|exact C]|]. rewrite ?app_nil_r. reflexivity.
      - intros (n0 & n1 & n2 & A0 & A1 & A2 & [_ C] & ->). assert (T : targets_of x = Ok n2) by (apply targets_ok, A2). rewrite T. cbn [rbind opb_input opb_output opb_errors]. apply IH. exists n0, n1, [].
        split; [exact A0|].
        split; [exact A1|].
        split; [apply (all_none _ _ _ FN); reflexivity|].
        split; [exact C|]. rewrite ?app_nil_r. reflexivity. }
    cbn [rbind unexpected]. split; [discriminate|]. intros (_ & _ & _ & _ & _ & _ & [[<- |[<- |[<- |[]]]] _] & _); rewrite str_eqb_refl in *; discriminate.
Qed.
Lemma operation_panic o s : fold_result operation_step o s = Panic -> bad_field ["input"; "output"]%string ["errors"]%string [] o.
Proof.
  intros P. apply fold_panic in P as (s' & [k x] & I & P). exists k, x. split; [exact I|]. destruct s' as [b0 b1 b2].  unfold operation_step in P. cbn [fst snd] in P.
  destruct (str_eqb k (lit "input")) eqn:K0; [apply str_eqb_eq in K0; subst k|].
  { destruct (target_of x) as [|e|] eqn:T; try discriminate. left. split; [left; reflexivity|apply target_panic, T]. }
  destruct (str_eqb k (lit "output")) eqn:K1; [apply str_eqb_eq in K1; subst k|].
  { destruct (target_of x) as [|e|] eqn:T; try discriminate. left. split; [right; left; reflexivity|apply target_panic, T]. }
  destruct (str_eqb k (lit "errors")) eqn:K2; [apply str_eqb_eq in K2; subst k|].
  { destruct (targets_of x) as [|e|] eqn:T; try discriminate. right. left. split; [left; reflexivity|apply targets_panic, T]. }
  discriminate.
Qed.

Definition resource_keys : list string := ["identifiers"; "create"; "put"; "read"; "update"; "delete"; "list"; "operations"; "collectionOperations"; "resources"]%string.
Lemma resource_fields o : distinct str_eqb o -> forall a0 a1 a2 a3 a4 a5 a6 a7 a8 a9 s,
  fold_result resource_step o (RsB a0 a1 a2 a3 a4 a5 a6 a7 a8 a9) = Ok s
  <-> exists n0 n1 n2 n3 n4 n5 n6 n7 n8 n9, named_at o "identifiers" n0 /\ one_at o "create" n1 /\ one_at o "put" n2 /\ one_at o "read" n3 /\ one_at o "update" n4 /\ one_at o "delete" n5 /\ one_at o "list" n6 /\ all_at o "operations" n7 /\ all_at o "collectionOperations" n8 /\ all_at o "resources" n9
      /\ only resource_keys o /\ s = RsB (put_all n0 a0) (orelse n1 a1) (orelse n2 a2) (orelse n3 a3) (orelse n4 a4) (orelse n5 a5) (orelse n6 a6) (a7 ++ n7) (a8 ++ n8) (a9 ++ n9).
Proof.
  induction o as [|[k x] o IH]; intros D a0 a1 a2 a3 a4 a5 a6 a7 a8 a9 s; cbn [fold_result].
  - split; [intros [= <-]; exists [], None, None, None, None, None, None, [], [], []; rewrite ?app_nil_r; repeat split; intros ? ? []|intros (n0 & n1 & n2 & n3 & n4 & n5 & n6 & n7 & n8 & n9 & A0 & A1 & A2 & A3 & A4 & A5 & A6 & A7 & A8 & A9 & _ & ->)].
    cbv [all_at one_at named_at field_of hm_get] in A0, A1, A2, A3, A4, A5, A6, A7, A8, A9. subst. rewrite ?app_nil_r. reflexivity.
  - specialize (IH (proj2 D)). setoid_rewrite only_cons. unfold resource_step at 1. cbn [fst snd].
    destruct (str_eqb k (lit "identifiers")) eqn:K0; [apply str_eqb_eq in K0; subst k|].
    { assert (FN := field_none _ _ _ D). fold ids_step. split.
      - destruct x as [|vs| | | |]; try discriminate. destruct (fold_result ids_step vs a0) as [ids|e|] eqn:T; cbn [rbind]; try discriminate. rewrite IH. intros (n0 & n1 & n2 & n3 & n4 & n5 & n6 & n7 & n8 & n9 & A0 & A1 & A2 & A3 & A4 & A5 & A6 & A7 & A8 & A9 & C & ->).
        apply (named_none _ _ _ FN) in A0. subst n0. apply ids_ok in T as (l & T & ->). exists l, n1, n2, n3, n4, n5, n6, n7, n8, n9.
        split; [exists vs; split; [reflexivity|exact T]|].
        split; [exact A1|].
        split; [exact A2|].
        split; [exact A3|].
        split; [exact A4|].
        split; [exact A5|].
        split; [exact A6|].
        split; [exact A7|].
        split; [exact A8|].
        split; [exact A9|].
        split; [split; [left; reflexivity|exact C]|]. reflexivity.
      - intros (n0 & n1 & n2 & n3 & n4 & n5 & n6 & n7 & n8 & n9 & A0 & A1 & A2 & A3 & A4 & A5 & A6 & A7 & A8 & A9 & [_ C] & ->). destruct A0 as (vs & -> & A0).
        assert (T : fold_result ids_step vs a0 = Ok (put_all n0 a0)) by (apply ids_ok; exists n0; auto). rewrite T. cbn [rbind]. apply IH. exists [], n1, n2, n3, n4, n5, n6, n7, n8, n9.
        split; [apply (named_none _ _ _ FN); reflexivity|].
        split; [exact A1|].
        split; [exact A2|].
        split; [exact A3|].
        split; [exact A4|].
        split; [exact A5|].
        split; [exact A6|].
        split; [exact A7|].
        split; [exact A8|].
        split; [exact A9|].
        split; [exact C|]. reflexivity. }
    destruct (str_eqb k (lit "create")) eqn:K1; [apply str_eqb_eq in K1; subst k|].
    { assert (FN := field_none _ _ _ D). split.
      - destruct (target_of x) as [t|e|] eqn:T; cbn [rbind opb_input opb_output opb_errors]; try discriminate. rewrite IH. intros (n0 & n1 & n2 & n3 & n4 & n5 & n6 & n7 & n8 & n9 & A0 & A1 & A2 & A3 & A4 & A5 & A6 & A7 & A8 & A9 & C & ->).
        apply (one_none _ _ _ FN) in A1. subst n1. exists n0, (Some t), n2, n3, n4, n5, n6, n7, n8, n9.
        split; [exact A0|].
        split; [exists t; split; [reflexivity|apply target_ok, T]|].
        split; [exact A2|].
        split; [exact A3|].
        split; [exact A4|].
        split; [exact A5|].
        split; [exact A6|].
        split; [exact A7|].
        split; [exact A8|].
        split; [exact A9|].
        split; [split; [right; left; reflexivity|exact C]|]. rewrite ?app_nil_r. reflexivity.
      - intros (n0 & n1 & n2 & n3 & n4 & n5 & n6 & n7 & n8 & n9 & A0 & A1 & A2 & A3 & A4 & A5 & A6 & A7 & A8 & A9 & [_ C] & ->). destruct A1 as (t & -> & A1). assert (T : target_of x = Ok t) by (apply target_ok, A1). rewrite T. cbn [rbind opb_input opb_output opb_errors]. apply IH. exists n0, None, n2, n3, n4, n5, n6, n7, n8, n9.
        split; [exact A0|].
        split; [apply (one_none _ _ _ FN); reflexivity|].
        split; [exact A2|].
        split; [exact A3|].
        split; [exact A4|].
        split; [exact A5|].
        split; [exact A6|].
        split; [exact A7|].
        split; [exact A8|].
        split; [exact A9|].
        split; [exact C|]. rewrite ?app_nil_r. reflexivity. }
    destruct (str_eqb k (lit "put")) eqn:K2; [apply str_eqb_eq in K2; subst k|].
    { assert (FN := field_none _ _ _ D). split.
      - destruct (target_of x) as [t|e|] eqn:T; cbn [rbind opb_input opb_output opb_errors]; try discriminate. rewrite IH. intros (n0 & n1 & n2 & n3 & n4 & n5 & n6 & n7 & n8 & n9 & A0 & A1 & A2 & A3 & A4 & A5 & A6 & A7 & A8 & A9 & C & ->).
        apply (one_none _ _ _ FN) in A2. subst n2. exists n0, n1, (Some t), n3, n4, n5, n6, n7, n8, n9.
        split; [exact A0|].
        split; [exact A1|].
        split; [exists t; split; [reflexivity|apply target_ok, T]|].
        split; [exact A3|].
        split; [exact A4|].
        split; [exact A5|].
        split; [exact A6|].
        split; [exact A7|].
        split; [exact A8|].
        split; [exact A9|].
        split; [split; [right; right; left; reflexivity|exact C]|]. rewrite ?app_nil_r. reflexivity.
      - intros (n0 & n1 & n2 & n3 & n4 & n5 & n6 & n7 & n8 & n9 & A0 & A1 & A2 & A3 & A4 & A5 & A6 & A7 & A8 & A9 & [_ C] & ->). destruct A2 as (t & -> & A2). assert (T : target_of x = Ok t) by (apply target_ok, A2). rewrite T. cbn [rbind opb_input opb_output opb_errors]. apply IH. exists n0, n1, None, n3, n4, n5, n6, n7, n8, n9.
        split; [exact A0|].
        split; [exact A1|].
        split; [apply (one_none _ _ _ FN); reflexivity|].
        split; [exact A3|].
        split; [exact A4|].
        split; [exact A5|].
        split; [exact A6|].
        split; [exact A7|].
        split; [exact A8|].
        split; [exact A9|].
        split; [exact C|]. rewrite ?app_nil_r. reflexivity. }
    destruct (str_eqb k (lit "read")) eqn:K3; [apply str_eqb_eq in K3; subst k|].
    { assert (FN := field_none _ _ _ D). split.
      - destruct (target_of x) as [t|e|] eqn:T; cbn [rbind opb_input opb_output opb_errors]; try discriminate. rewrite IH. intros (n0 & n1 & n2 & n3 & n4 & n5 & n6 & n7 & n8 & n9 & A0 & A1 & A2 & A3 & A4 & A5 & A6 & A7 & A8 & A9 & C & ->).
        apply (one_none _ _ _ FN) in A3. subst n3. exists n0, n1, n2, (Some t), n4, n5, n6, n7, n8, n9.
        split; [exact A0|].
        split; [exact A1|].
        split; [exact A2|].
        split; [exists t; split; [reflexivity|apply target_ok, T]|].
        split; [exact A4|].
        split; [exact A5|].
        split; [exact A6|].
        split; [exact A7|].
        split; [exact A8|].
        split; [exact A9|].
        split; [split; [right; right; right; left; reflexivity|exact C]|]. rewrite ?app_nil_r. reflexivity.
      - intros (n0 & n1 & n2 & n3 & n4 & n5 & n6 & n7 & n8 & n9 & A0 & A1 & A2 & A3 & A4 & A5 & A6 & A7 & A8 & A9 & [_ C] & ->). destruct A3 as (t & -> & A3). assert (T : target_of x = Ok t) by (apply target_ok, A3). rewrite T. cbn [rbind opb_input opb_output opb_errors]. apply IH. exists n0, n1, n2, None, n4, n5, n6, n7, n8, n9.
        split; [exact A0|].
        split; [exact A1|].
        split; [exact A2|].
        split; [apply (one_none _ _ _ FN); reflexivity|].
        split; [exact A4|].
        split; [exact A5|].
        split; [exact A6|].
        split; [exact A7|].
        split; [exact A8|].
        split; [exact A9|].
        split; [exact C|]. rewrite ?app_nil_r. reflexivity. }
    destruct (str_eqb k (lit "update")) eqn:K4; [apply str_eqb_eq in K4; subst k|].
    { assert (FN := field_none _ _ _ D). split.
      - destruct (target_of x) as [t|e|] eqn:T; cbn [rbind opb_input opb_output opb_errors]; try discriminate. rewrite IH. intros (n0 & n1 & n2 & n3 & n4 & n5 & n6 & n7 & n8 & n9 & A0 & A1 & A2 & A3 & A4 & A5 & A6 & A7 & A8 & A9 & C & ->).
        apply (one_none _ _ _ FN) in A4. subst n4. exists n0, n1, n2, n3, (Some t), n5, n6, n7, n8, n9.
        split; [exact A0|].
        split; [exact A1|].
        split; [exact A2|].
        split; [exact A3|].
        split; [exists t; split; [reflexivity|apply target_ok, T]|].
        split; [exact A5|].
        split; [exact A6|].
        split; [exact A7|].
        split; [exact A8|].
        split; [exact A9|].
        split; [split; [right; right; right; right; left; reflexivity|exact C]|]. rewrite ?app_nil_r. reflexivity.
      - intros (n0 & n1 & n2 & n3 & n4 & n5 & n6 & n7 & n8 & n9 & A0 & A1 & A2 & A3 & A4 & A5 & A6 & A7 & A8 & A9 & [_ C] & ->). destruct A4 as (t & -> & A4). assert (T : target_of x = Ok t) by (apply target_ok, A4). rewrite T. cbn [rbind opb_input opb_output opb_errors]. apply IH. exists n0, n1, n2, n3, None, n5, n6, n7, n8, n9.
        split; [exact A0|].
        split; [exact A1|].
        split; [exact A2|].
        split; [exact A3|].
        split; [apply (one_none _ _ _ FN); reflexivity|].
        split; [exact A5|].
        split; [exact A6|].
        split; [exact A7|].
        split; [exact A8|].
        split; [exact A9|].
        split; [exact C|]. rewrite ?app_nil_r. reflexivity. }
    destruct (str_eqb k (lit "delete")) eqn:K5; [apply str_eqb_eq in K5; subst k|].
    { assert (FN := field_none _ _ _ D). split.
      - destruct (target_of x) as [t|e|] eqn:T; cbn [rbind opb_input opb_output opb_errors]; try discriminate. rewrite IH. intros (n0 & n1 & n2 & n3 & n4 & n5 & n6 & n7 & n8 & n9 & A0 & A1 & A2 & A3 & A4 & A5 & A6 & A7 & A8 & A9 & C & ->).
        apply (one_none _ _ _ FN) in A5. subst n5. exists n0, n1, n2, n3, n4, (Some t), n6, n7, n8, n9.
        split; [exact A0|].
        split; [exact A1|].
        split; [exact A2|].
        split; [exact A3|].
        split; [exact A4|].
        split; [exists t; split; [reflexivity|apply target_ok, T]|].
        split; [exact A6|].
        split; [exact A7|].
        split; [exact A8|].
        split; [exact A9|].
        split; [split; [right; right; right; right; right; left; reflexivity|exact C]|]. rewrite ?app_nil_r. reflexivity.
      - intros (n0 & n1 & n2 & n3 & n4 & n5 & n6 & n7 & n8 & n9 & A0 & A1 & A2 & A3 & A4 & A5 & A6 & A7 & A8 & A9 & [_ C] & ->). destruct A5 as (t & -> & A5). assert (T : target_of x = Ok t) by (apply target_ok, A5). rewrite T. cbn [rbind opb_input opb_output opb_errors]. apply IH. exists n0, n1, n2, n3, n4, None, n6, n7, n8, n9.
        split; [exact A0|].
        split; [exact A1|].
        split; [exact A2|].
        split; [exact A3|].
        split; [exact A4|].
        split; [apply (one_none _ _ _ FN); reflexivity|].
        split; [exact A6|].
        split; [exact A7|].
        split; [exact A8|].
        split; [exact A9|].
        split; [exact C|]. rewrite ?app_nil_r. reflexivity. }
    destruct (str_eqb k (lit "list")) eqn:K6; [apply str_eqb_eq in K6; subst k|].
    { assert (FN := field_none _ _ _ D). split.
      - destruct (target_of x) as [t|e|] eqn:T; cbn [rbind opb_input opb_output opb_errors]; try discriminate. rewrite IH. intros (n0 & n1 & n2 & n3 & n4 & n5 & n6 & n7 & n8 & n9 & A0 & A1 & A2 & A3 & A4 & A5 & A6 & A7 & A8 & A9 & C & ->).
        apply (one_none _ _ _ FN) in A6. subst n6. exists n0, n1, n2, n3, n4, n5, (Some t), n7, n8, n9.
        split; [exact A0|].
        split; [exact A1|].
        split; [exact A2|].
        split; [exact A3|].
        split; [exact A4|].
        split; [exact A5|].
        split; [exists t; split; [reflexivity|apply target_ok, T]|].
        split; [exact A7|].
        split; [exact A8|].
        split; [exact A9|].
        split; [split; [right; right; right; right; right; right; left; reflexivity|exact C]|]. rewrite ?app_nil_r. reflexivity.
      - intros (n0 & n1 & n2 & n3 & n4 & n5 & n6 & n7 & n8 & n9 & A0 & A1 & A2 & A3 & A4 & A5 & A6 & A7 & A8 & A9 & [_ C] & ->). destruct A6 as (t & -> & A6). assert (T : target_of x = Ok t) by (apply target_ok, A6). rewrite T. cbn [rbind opb_input opb_output opb_errors]. apply IH. exists n0, n1, n2, n3, n4, n5, None, n7, n8, n9.
        split; [exact A0|].
        split; [exact A1|].
        split; [exact A2|].
        split; [exact A3|].
        split; [exact A4|].
        split; [exact A5|].
        split; [apply (one_none _ _ _ FN); reflexivity|].
        split; [exact A7|].
        split; [exact A8|].
        split; [exact A9|].
        split; [exact C|]. rewrite ?app_nil_r. reflexivity. }
    destruct (str_eqb k (lit "operations")) eqn:K7; [apply str_eqb_eq in K7; subst k|].
    { assert (FN := field_none _ _ _ D). split.
      - destruct (targets_of x) as [t|e|] eqn:T; cbn [rbind opb_input opb_output opb_errors]; try discriminate. rewrite IH. intros (n0 & n1 & n2 & n3 & n4 & n5 & n6 & n7 & n8 & n9 & A0 & A1 & A2 & A3 & A4 & A5 & A6 & A7 & A8 & A9 & C & ->).
        apply (all_none _ _ _ FN) in A7. subst n7. exists n0, n1, n2, n3, n4, n5, n6, t, n8, n9.
        split; [exact A0|].
        split; [exact A1|].
        split; [exact A2|].
        split; [exact A3|].
        split; [exact A4|].
        split; [exact A5|].
        split; [exact A6|].
        split; [apply targets_ok, T|].
        split; [exact A8|].
        split; [exact A9|].
        split; [split; [right; right; right; right; right; right; right; left; reflexivity|exact C]|]. rewrite ?app_nil_r. reflexivity.
      - intros (n0 & n1 & n2 & n3 & n4 & n5 & n6 & n7 & n8 & n9 & A0 & A1 & A2 & A3 & A4 & A5 & A6 & A7 & A8 & A9 & [_ C] & ->). assert (T : targets_of x = Ok n7) by (apply targets_ok, A7). rewrite T. cbn [rbind opb_input opb_output opb_errors]. apply IH. exists n0, n1, n2, n3, n4, n5, n6, [], n8, n9.
        split; [exact A0|].
        split; [exact A1|].
        split; [exact A2|].
        split; [exact A3|].
        split; [exact A4|].
        split; [exact A5|].
        split; [exact A6|].
        split; [apply (all_none _ _ _ FN); reflexivity|].
        split; [exact A8|].
        split; [exact A9|].
        split; [exact C|]. rewrite ?app_nil_r. reflexivity. }
    destruct (str_eqb k (lit "collectionOperations")) eqn:K8; [apply str_eqb_eq in K8; subst k|].
    { assert (FN := field_none _ _ _ D). split.
      - destruct (targets_of x) as [t|e|] eqn:T; cbn [rbind opb_input opb_output opb_errors]; try discriminate. rewrite IH. intros (n0 & n1 & n2 & n3 & n4 & n5 & n6 & n7 & n8 & n9 & A0 & A1 & A2 & A3 & A4 & A5 & A6 & A7 & A8 & A9 & C & ->).
        apply (all_none _ _ _ FN) in A8. subst n8. exists n0, n1, n2, n3, n4, n5, n6, n7, t, n9.
        split; [exact A0|].
        split; [exact A1|].
        split; [exact A2|].
        split; [exact A3|].
        split; [exact A4|].
        split; [exact A5|].
        split; [exact A6|].
        split; [exact A7|].
        split; [apply targets_ok, T|].
        split; [exact A9|].
        split; [split; [right; right; right; right; right; right; right; right; left; reflexivity|exact C]|]. rewrite ?app_nil_r. reflexivity.
      - intros (n0 & n1 & n2 & n3 & n4 & n5 & n6 & n7 & n8 & n9 & A0 & A1 & A2 & A3 & A4 & A5 & A6 & A7 & A8 & A9 & [_ C] & ->). assert (T : targets_of x = Ok n8) by (apply targets_ok, A8). rewrite T. cbn [rbind opb_input opb_output opb_errors]. apply IH. exists n0, n1, n2, n3, n4, n5, n6, n7, [], n9.
        split; [exact A0|].
        split; [exact A1|].
        split; [exact A2|].
        split; [exact A3|].
        split; [exact A4|].
        split; [exact A5|].
        split; [exact A6|].
        split; [exact A7|].
        split; [apply (all_none _ _ _ FN); reflexivity|].
        split; [exact A9|].
        split; [exact C|]. rewrite ?app_nil_r. reflexivity. }
    destruct (str_eqb k (lit "resources")) eqn:K9; [apply str_eqb_eq in K9; subst k|].
    { assert (FN := field_none _ _ _ D). split.
      - destruct (targets_of x) as [t|e|] eqn:T; cbn [rbind opb_input opb_output opb_errors]; try discriminate. rewrite IH. intros (n0 & n1 & n2 & n3 & n4 & n5 & n6 & n7 & n8 & n9 & A0 & A1 & A2 & A3 & A4 & A5 & A6 & A7 & A8 & A9 & C & ->).
        apply (all_none _ _ _ FN) in A9. subst n9. exists n0, n1, n2, n3, n4, n5, n6, n7, n8, t.
        split; [exact A0|].
        split; [exact A1|].
        split; [exact A2|].
        split; [exact A3|].
        split; [exact A4|].
        split; [exact A5|].
        split; [exact A6|].
        split; [exact A7|].
        split; [exact A8|].
        split; [apply targets_ok, T|].
        split; [split; [right; right; right; right; right; right; right; right; right; left; reflexivity|exact C]|]. rewrite ?app_nil_r. reflexivity.
      - intros (n0 & n1 & n2 & n3 & n4 & n5 & n6 & n7 & n8 & n9 & A0 & A1 & A2 & A3 & A4 & A5 & A6 & A7 & A8 & A9 & [_ C] & ->). assert (T : targets_of x = Ok n9) by (apply targets_ok, A9). rewrite T. cbn [rbind opb_input opb_output opb_errors]. apply IH. exists n0, n1, n2, n3, n4, n5, n6, n7, n8, [].
        split; [exact A0|].
        split; [exact A1|].
        split; [exact A2|].
        split; [exact A3|].
        split; [exact A4|].
        split; [exact A5|].
        split; [exact A6|].
        split; [exact A7|].
        split; [exact A8|].
        split; [apply (all_none _ _ _ FN); reflexivity|].
        split; [exact C|]. rewrite ?app_nil_r. reflexivity. }
    cbn [rbind unexpected]. split; [discriminate|]. intros (_ & _ & _ & _ & _ & _ & _ & _ & _ & _ & _ & _ & _ & _ & _ & _ & _ & _ & _ & _ & [[<- |[<- |[<- |[<- |[<- |[<- |[<- |[<- |[<- |[<- |[]]]]]]]]]]] _] & _); rewrite str_eqb_refl in *; discriminate.
Qed.
Lemma resource_panic o s : fold_result resource_step o s = Panic -> bad_field ["create"; "put"; "read"; "update"; "delete"; "list"]%string ["operations"; "collectionOperations"; "resources"]%string ["identifiers"]%string o.
Proof.
  intros P. apply fold_panic in P as (s' & [k x] & I & P). exists k, x. split; [exact I|]. destruct s' as [b0 b1 b2 b3 b4 b5 b6 b7 b8 b9].  unfold resource_step in P. cbn [fst snd] in P.
  destruct (str_eqb k (lit "identifiers")) eqn:K0; [apply str_eqb_eq in K0; subst k|].
  { fold ids_step in P. destruct x as [|vs| | | |]; try discriminate. destruct (fold_result ids_step vs _) as [|e|] eqn:T; try discriminate. right. right. split; [left; reflexivity|apply ids_panic in T; exact T]. }
  destruct (str_eqb k (lit "create")) eqn:K1; [apply str_eqb_eq in K1; subst k|].
  { destruct (target_of x) as [|e|] eqn:T; try discriminate. left. split; [left; reflexivity|apply target_panic, T]. }
  destruct (str_eqb k (lit "put")) eqn:K2; [apply str_eqb_eq in K2; subst k|].
  { destruct (target_of x) as [|e|] eqn:T; try discriminate. left. split; [right; left; reflexivity|apply target_panic, T]. }
  destruct (str_eqb k (lit "read")) eqn:K3; [apply str_eqb_eq in K3; subst k|].
  { destruct (target_of x) as [|e|] eqn:T; try discriminate. left. split; [right; right; left; reflexivity|apply target_panic, T]. }
  destruct (str_eqb k (lit "update")) eqn:K4; [apply str_eqb_eq in K4; subst k|].
  { destruct (target_of x) as [|e|] eqn:T; try discriminate. left. split; [right; right; right; left; reflexivity|apply target_panic, T]. }
  destruct (str_eqb k (lit "delete")) eqn:K5; [apply str_eqb_eq in K5; subst k|].
  { destruct (target_of x) as [|e|] eqn:T; try discriminate. left. split; [right; right; right; right; left; reflexivity|apply target_panic, T]. }
  destruct (str_eqb k (lit "list")) eqn:K6; [apply str_eqb_eq in K6; subst k|].
  { destruct (target_of x) as [|e|] eqn:T; try discriminate. left. split; [right; right; right; right; right; left; reflexivity|apply target_panic, T]. }
  destruct (str_eqb k (lit "operations")) eqn:K7; [apply str_eqb_eq in K7; subst k|].
  { destruct (targets_of x) as [|e|] eqn:T; try discriminate. right. left. split; [left; reflexivity|apply targets_panic, T]. }
  destruct (str_eqb k (lit "collectionOperations")) eqn:K8; [apply str_eqb_eq in K8; subst k|].
  { destruct (targets_of x) as [|e|] eqn:T; try discriminate. right. left. split; [right; left; reflexivity|apply targets_panic, T]. }
  destruct (str_eqb k (lit "resources")) eqn:K9; [apply str_eqb_eq in K9; subst k|].
  { destruct (targets_of x) as [|e|] eqn:T; try discriminate. right. left. split; [right; right; left; reflexivity|apply targets_panic, T]. }
  discriminate.
Qed.

(** ** Bodies *)
Notation fields_of := (fields_of f64_parse).
Notation declared_member := (declared_member f64_parse).
Notation declared_traits := (declared_traits f64_parse).
Lemma fields_distinct l : distinct str_eqb (fields_of l).
Proof. apply BuilderFacts.from_list_distinct, str_eqb_equiv. Qed.
Definition list_read (ms : list idl_member) (mk : member_builder -> builder_body) : result builder_body :=
  match map declared_member ms with
  | [m] => if ident_eqb (mb_name m) (lit "member") then Ok (mk (MB (lit "member") [] (mb_target m))) else unexpected "parse_list_statement"
  | _ => unexpected "parse_list_statement"
  end.
Definition body_read (n : str) (b : raw_body) : result builder_body :=
  match b with
  | RSimple s => Ok (BSimple s)
  | RList ms => list_read ms BList
  | RSet ms => list_read ms BSet
  | RMap ms =>
      s <- fold_result map_step (map declared_member ms) (None, None) ;;
      e <- both "parse_map_statement" (fst s) (snd s) ;; x <- map_new n (fst e) (snd e) ;; Ok (sb_body x)
  | RStructure ms => Ok (BStructure (map declared_member ms))
  | RUnion ms => Ok (BUnion (map declared_member ms))
  | RService l =>
      match field_of (fields_of l) "version" with
      | None => Panic
      | Some v => v <- as_string v ;; s <- fold_result service_step (fields_of l) (SvB v [] [] []) ;; Ok (BService s)
      end
  | ROperation l => o <- fold_result operation_step (fields_of l) (OpB None None []) ;; Ok (BOperation o)
  | RResource l => r <- fold_result resource_step (fields_of l) (RsB [] None None None None None None [] [] []) ;; Ok (BResource r)
  end.
Definition read_as (n : str) (b : raw_body) (p : ipair) : Prop :=
  body_statement f64_parse p = Some (x <- body_read n b ;; Ok (SB (Local n) [] x)).
Lemma entries_block l : entries_ok l -> exists p, (p_rule p = I_node_object /\ idl_object f64_parse p = Ok (fields_of l))
  /\ forall r, ev false (icall I_node_object) (braces (map node_entry_text l) ++ r) (Some ([p], r)).
Proof.
  intros EO. destruct (object_inside_n f64_parse _ (entries_of_ok f64_parse _ EO)) as (inner & F2 & E).
  specialize (E line_end line_end_blank ltac:(discriminate)). rewrite entry_of_texts in E.
  eexists (Pair I_node_object _ inner). split; [split; [reflexivity|]|exact E].
  rewrite (object_read_n f64_parse _ inner _ F2), entry_of_values. reflexivity.
Qed.
Ltac body_alts K := apply (ev_silent I_shape_body); [reflexivity|]; cbn [snd smithy_rule body_rules map PAlts];
  repeat first [apply ev_alt1; exact K | exact K | apply ev_alt2; [ev_compute|]].
Lemma list_raw n ms : short_identifier n -> Forall idl_member_ok ms ->
  gives (icall I_shape_body) (keyword_text "list" n (map idl_member_text ms)) (read_as n (RList ms))
  /\ gives (icall I_shape_body) (keyword_text "set" n (map idl_member_text ms)) (read_as n (RSet ms)).
Proof.
  intros S A. destruct (members_block_n f64_parse ms A) as (p & [P M] & E).
  assert (R : forall mk q t, list_statement f64_parse mk (Pair q t [Pair I_identifier n []; p]) = (x <- list_read ms mk ;; Ok (SB (Local n) [] x))).
  { intros mk q t. unfold list_statement, list_read. rewrite (membered_read f64_parse q t n p _ P M). cbn [rbind snd fst].
    destruct (map declared_member ms) as [|m [|m' l]]; try reflexivity. destruct (ident_eqb _ _); [|reflexivity]. rewrite (name_local _ S). reflexivity. }
  split; (split; [split; [reflexivity|discriminate]|]).
  - eexists. split; [|intros r F; assert (K := ev_keyword I_list_statement "list" I_shape_members n _ p eq_refl S (braces_solid _) E r); body_alts K].
    unfold read_as, SmithyParse.body_statement. cbn [p_rule]. rewrite R. reflexivity.
  - eexists. split; [|intros r F; assert (K := ev_keyword I_set_statement "set" I_shape_members n _ p eq_refl S (braces_solid _) E r); body_alts K].
    unfold read_as, SmithyParse.body_statement. cbn [p_rule]. rewrite R. reflexivity.
Qed.
Lemma map_new_name n k v x : map_new n k v = Ok x -> shape_name_from_str n = Ok (sb_name x) /\ sb_traits x = [].
Proof. unfold map_new. destruct (shape_name_from_str n); cbn [unwrap rbind]; try discriminate. destruct (member_new _ _) ; cbn [rbind]; try discriminate. destruct (member_new _ _) ; cbn [rbind]; try discriminate. intros [= <-]. auto. Qed.
Lemma map_raw n ms : short_identifier n -> Forall idl_member_ok ms ->
  gives (icall I_shape_body) (keyword_text "map" n (map idl_member_text ms)) (read_as n (RMap ms)).
Proof.
  intros S A. destruct (members_block_n f64_parse ms A) as (p & [P M] & E). split; [split; [reflexivity|discriminate]|].
  eexists. split; [|intros r F; assert (K := ev_keyword I_map_statement "map" I_shape_members n _ p eq_refl S (braces_solid _) E r); body_alts K].
  unfold read_as, SmithyParse.body_statement. cbn [p_rule]. unfold map_statement. rewrite (membered_read f64_parse _ _ n p _ P M). cbn [rbind snd fst body_read].
  destruct (fold_result map_step _ _) as [s|e|]; cbn [rbind]; try reflexivity. destruct (both _ _ _) as [e|e|]; cbn [rbind]; try reflexivity.
  destruct (map_new n (fst e) (snd e)) as [x|y|] eqn:X; cbn [rbind]; try reflexivity. apply map_new_name in X as [X Y]. rewrite (name_local _ S) in X. destruct x as [a b c]. cbn in X, Y |- *. congruence.
Qed.
Lemma structure_raw n ms : short_identifier n -> Forall idl_member_ok ms ->
  gives (icall I_shape_body) (keyword_text "structure" n (map idl_member_text ms)) (read_as n (RStructure ms))
  /\ gives (icall I_shape_body) (keyword_text "union" n (map idl_member_text ms)) (read_as n (RUnion ms)).
Proof. intros S A. apply (structure_body_n f64_parse n ms S A). Qed.
Lemma service_raw n l : short_identifier n -> entries_ok l -> gives (icall I_shape_body) (keyword_text "service" n (map node_entry_text l)) (read_as n (RService l)).
Proof.
  intros S O. destruct (entries_block l O) as (p & [P V] & E). split; [split; [reflexivity|discriminate]|].
  eexists. split; [|intros r F; assert (K := ev_keyword I_service_statement "service" I_node_object n _ p eq_refl S (braces_solid _) E r); body_alts K].
  unfold read_as, SmithyParse.body_statement. cbn [p_rule]. unfold service_statement. rewrite (object_read f64_parse _ _ n p _ P V). cbn [rbind snd fst body_read].
  fold (field_of (fields_of l) "version"). destruct (field_of (fields_of l) "version") as [v|]; [|reflexivity]. destruct (as_string v) as [t|e|]; cbn [rbind]; try reflexivity.
  rewrite (name_local _ S). cbn [unwrap rbind]. destruct (fold_result _ _ _); reflexivity.
Qed.
Lemma operation_raw n l : short_identifier n -> entries_ok l -> gives (icall I_shape_body) (keyword_text "operation" n (map node_entry_text l)) (read_as n (ROperation l)).
Proof.
  intros S O. destruct (entries_block l O) as (p & [P V] & E). split; [split; [reflexivity|discriminate]|].
  eexists. split; [|intros r F; assert (K := ev_keyword I_operation_statement "operation" I_node_object n _ p eq_refl S (braces_solid _) E r); body_alts K].
  unfold read_as, SmithyParse.body_statement. cbn [p_rule]. unfold operation_statement. rewrite (object_read f64_parse _ _ n p _ P V). cbn [rbind snd fst body_read].
  rewrite (name_local _ S). cbn [unwrap rbind]. destruct (fold_result _ _ _); reflexivity.
Qed.
Lemma resource_raw n l : short_identifier n -> entries_ok l -> gives (icall I_shape_body) (keyword_text "resource" n (map node_entry_text l)) (read_as n (RResource l)).
Proof.
  intros S O. destruct (entries_block l O) as (p & [P V] & E). split; [split; [reflexivity|discriminate]|].
  eexists. split; [|intros r F; assert (K := ev_keyword I_resource_statement "resource" I_node_object n _ p eq_refl S (braces_solid _) E r); body_alts K].
  unfold read_as, SmithyParse.body_statement. cbn [p_rule]. unfold resource_statement. rewrite (object_read f64_parse _ _ n p _ P V). cbn [rbind snd fst body_read].
  rewrite (name_local _ S). cbn [unwrap rbind]. destruct (fold_result _ _ _); reflexivity.
Qed.
Lemma raw_body_gives n b : short_identifier n -> raw_body_ok b -> gives (icall I_shape_body) (raw_body_text n b) (read_as n b).
Proof.
  intros S O. destruct b as [s|ms|ms|ms|ms|ms|l|l|l]; cbn [raw_body_text raw_body_ok] in *.
  - rewrite simple_word_text. apply simple_body, S.
  - apply (list_raw _ _ S O).
  - apply (list_raw _ _ S O).
  - apply map_raw; assumption.
  - apply (structure_raw _ _ S O).
  - apply (structure_raw _ _ S O).
  - apply service_raw; assumption.
  - apply operation_raw; assumption.
  - apply resource_raw; assumption.
Qed.
Lemma raw_named n b : named (raw_body_text n b) /\ forall r, ev false (icall I_use_statement) (raw_body_text n b ++ r) None.
Proof.
  destruct b as [s|ms|ms|ms|ms|ms|fs|fs|fs]; try (split; [left; reflexivity|intros r; ev_compute]).
  destruct s; (split; [left; reflexivity|intros r; ev_compute]).
Qed.

(** ** Statements *)
Definition raw_step (s : raw_statement) (b : builder) : result builder :=
  match s with
  | RShape docs ts n x => y <- body_read n x ;; Ok (bd_insert b (SB (Local n) (declared_traits docs ts) y))
  | RApply _ _ => unexpected "parse_shape_statements"
  end.
Lemma raw_solid s : solid (raw_statement_text s).
Proof. destruct s as [docs ts n b|r t]; [apply heading_solid, raw_named|split; [reflexivity|discriminate]]. Qed.
Lemma raw_no_use s r : ev false (icall I_use_statement) (raw_statement_text s ++ r) None.
Proof.
  destruct s as [[|d ds] [|t ts] n b|x t]; cbn [raw_statement_text]; unfold heading_text; try ev_compute. exact (proj2 (raw_named n b) r).
Qed.
Lemma raw_states s : raw_statement_ok s -> states any_statement (raw_statement_text s) (step_of f64_parse raw_step s).
Proof.
  intros O. split; [apply raw_solid|]. intros w BW NW. destruct s as [docs ts n x|r t]; cbn [raw_statement_ok raw_statement_text] in *.
  - destruct O as (HO & S & BO).
    destruct (ev_heading f64_parse _ _ HO) as (pt & [PT TS] & ET). destruct (raw_body_gives _ _ S BO) as (SC & pb & PB & EB).
    exists (Pair I_shape_statement ((heading_text docs ts ++ raw_body_text n x) ++ w) (map doc_pair docs ++ [pt; pb])). split.
    + intros b. unfold statements_step. cbn [p_rule]. unfold shape_statement. cbn [p_inner]. rewrite statement_docs. cbn [fold_result app]. unfold statement_step at 1. rewrite PT, TS. cbn [rbind].
      unfold statement_step. red in PB. rewrite PB. rewrite applied_declared. cbn [raw_step].
      destruct (p_rule pb) eqn:RB; try (unfold body_statement in PB; rewrite RB in PB; discriminate PB); destruct (body_read n x); reflexivity.
    + intros r NR. apply ev_alt1. rewrite app_assoc. refine (ev_normal I_shape_statement _ _ r eq_refl _). cbn [snd smithy_rule PSeqs]. rewrite <- !app_assoc.
      refine (ET _ _ [pb] r (named_app _ _ (proj1 (raw_named _ _))) _).
      refine (sq_end _ _ _ _ [pb] (w ++ r) r (EB _ (blank_follow _ _ BW NW)) (ev_ws _ _ _ BW NR)).
  - destruct O as [R T]. destruct (ref_names _ R) as (SO & _ & E). destruct (gives_trait_n f64_parse t T) as (ST & pt & _ & ET).
    exists (Pair I_apply_statement ((lit "apply " ++ ref_text r ++ lit " " ++ idl_trait_text t) ++ w) [Pair I_shape_id (ref_text r) []; pt]). split.
    + intros b. reflexivity.
    + intros r0 NR. apply ev_alt2; [ev_compute|]. rewrite app_assoc. refine (ev_normal I_apply_statement _ _ r0 eq_refl _). cbn [snd smithy_rule PSeqs]. rewrite <- !app_assoc.
      change (lit "apply " ++ ref_text r ++ lit " " ++ idl_trait_text t ++ w ++ r0) with (lit "apply" ++ lit " " ++ ref_text r ++ lit " " ++ idl_trait_text t ++ w ++ r0).
      refine (sq_tok _ (lit "apply") _ _ _ _ _). refine (sq _ _ _ _ [] _ _ r0 (ev_ws _ (lit " ") _ _ (solid_no_ws _ _ SO)) _); [repeat constructor|].
      refine (sq _ _ _ _ [Pair I_shape_id (ref_text r) []] (lit " " ++ idl_trait_text t ++ w ++ r0) [pt] r0 (E _ _) _); [left; reflexivity|].
      refine (sq _ _ _ _ [] _ _ r0 (ev_ws _ (lit " ") _ _ (solid_no_ws _ _ ST)) _); [repeat constructor|].
      refine (sq_end _ _ _ _ [pt] (w ++ r0) r0 (ET _ (blank_follow _ _ BW NW)) (ev_ws _ _ _ BW NR)).
Qed.

(** ** What bodies mean *)
Lemma list_read_ok ms mk x : list_read ms mk = Ok x <-> exists m, ms = [m] /\ same_name (im_name m) (lit "member") /\ x = mk (bare_member "member" (im_target m)).
Proof.
  unfold list_read. destruct ms as [|m [|m' l]]; cbn [map]; try (split; [discriminate|intros (? & X & _); discriminate X]).
  unfold IdlSpec.declared_member. cbn [mb_name mb_target]. split.
  - destruct (ident_eqb _ _) eqn:E; [|discriminate]. intros [= <-]. exists m. apply ident_eqb_spec in E. auto.
  - intros (? & [= <-] & E & ->). apply ident_eqb_spec in E. rewrite E. reflexivity.
Qed.
Definition key_or_value (m : idl_member) : Prop := same_name (im_name m) (lit "key") \/ same_name (im_name m) (lit "value").
Lemma map_stray ms : ~ Forall key_or_value ms -> forall s, exists e, fold_result map_step (map declared_member ms) s = Err e.
Proof.
  induction ms as [|m ms IH]; intros N s; [exfalso; apply N; constructor|]. cbn [map fold_result]. unfold map_step at 1. unfold IdlSpec.declared_member at 1 2 3 4. cbn [mb_name mb_target].
  destruct (ident_eqb (im_name m) (lit "key")) eqn:A; [|destruct (ident_eqb (im_name m) (lit "value")) eqn:B].
  - apply IH. intros F. apply N. constructor; [left; apply ident_eqb_spec, A|exact F].
  - apply IH. intros F. apply N. constructor; [right; apply ident_eqb_spec, B|exact F].
  - eexists. reflexivity.
Qed.
Lemma key_or_value_dec ms : Forall key_or_value ms \/ ~ Forall key_or_value ms.
Proof.
  induction ms as [|m ms IH]; [left; constructor|]. destruct IH as [F|N]; [|right; intros F; inversion F; contradiction].
  destruct (ident_eqb (im_name m) (lit "key")) eqn:A; [left; constructor; [left; apply ident_eqb_spec, A|exact F]|].
  destruct (ident_eqb (im_name m) (lit "value")) eqn:B; [left; constructor; [right; apply ident_eqb_spec, B|exact F]|].
  right. intros G. inversion G as [|? ? [K|K] _]; subst; apply ident_eqb_spec in K; congruence.
Qed.
Lemma upd_from n ms : forall o k, fold_left (upd n) ms o = Some k -> o = Some k \/ exists x, In x ms /\ im_target x = k.
Proof.
  induction ms as [|m ms IH]; intros o k; cbn [fold_left]; [left; assumption|]. intros E. apply IH in E as [E|(x & I & E)].
  - unfold upd in E. destruct (str_eqb _ _); [injection E as <-; right; exists m; split; [left|]; reflexivity|left; exact E].
  - right. exists x. split; [right|]; assumption.
Qed.
Lemma map_read n ms : short_identifier n -> Forall idl_member_ok ms ->
  (forall x, body_read n (RMap ms) = Ok x <-> body_means f64_parse (RMap ms) x) /\ body_read n (RMap ms) <> Panic.
Proof.
  intros S A. cbn [body_read]. destruct (key_or_value_dec ms) as [F|N].
  - assert (F2 : Forall (fun x => idl_member_ok x /\ key_or_value x) ms) by (apply Forall_and; assumption).
    assert (Q := map_fold f64_parse ms F2 None None). cbn [option_map] in Q. rewrite Q. cbn [rbind fst snd].
    change (fold_left (upd "key") ms None) with (last_named "key" ms). change (fold_left (upd "value") ms None) with (last_named "value" ms).
    assert (T : forall q k, last_named q ms = Some k -> shape_name_from_str (ref_text k) = Ok (declared_name k)).
    { intros q k E. change (fold_left (upd q) ms None = Some k) in E. apply upd_from in E as [E|(x & I & <-)]; [discriminate|].
      rewrite Forall_forall in A. destruct (A _ I) as (_ & _ & R). apply (ref_names _ R). }
    destruct (last_named "key" ms) as [k|] eqn:K; destruct (last_named "value" ms) as [v|] eqn:V; cbn [option_map both rbind fst snd];
      try (split; [intros x; split; [discriminate|inversion 1; subst; congruence]|discriminate]).
    assert (TK := T _ _ K). assert (TV := T _ _ V). unfold map_new, member_new. rewrite (name_local _ S), TK, TV. cbn [unwrap rbind].
    change (unwrap (ident_from_str (lit "key"))) with (@Ok str (lit "key")). change (unwrap (ident_from_str (lit "value"))) with (@Ok str (lit "value")). cbn [rbind sb_body].
    split; [|discriminate]. intros x. split.
    + intros [= <-]. apply (bm_map f64_parse ms k v F K V).
    + inversion 1; subst. unfold bare_member. congruence.
  - destruct (map_stray ms N (None, None)) as [e E]. rewrite E. cbn [rbind]. split; [|discriminate]. intros x. split; [discriminate|inversion 1; subst; contradiction].
Qed.
Lemma body_read_ok n b x : short_identifier n -> raw_body_ok b -> body_read n b = Ok x <-> body_means f64_parse b x.
Proof.
  intros S O. destruct b as [s|ms|ms|ms|ms|ms|l|l|l]; cbn [raw_body_ok] in O.
  - cbn [body_read]. split; [intros [= <-]; constructor|inversion 1; reflexivity].
  - cbn [body_read]. rewrite list_read_ok. split; [intros (m & -> & E & ->); constructor; exact E|inversion 1; subst; eauto].
  - cbn [body_read]. rewrite list_read_ok. split; [intros (m & -> & E & ->); constructor; exact E|inversion 1; subst; eauto].
  - apply map_read; assumption.
  - cbn [body_read]. split; [intros [= <-]; constructor|inversion 1; reflexivity].
  - cbn [body_read]. split; [intros [= <-]; constructor|inversion 1; reflexivity].
  - cbn [body_read]. split.
    + destruct (field_of (fields_of l) "version") as [v|] eqn:V; [|discriminate]. destruct v as [| | | |t|]; cbn [as_string rbind]; try discriminate.
      destruct (fold_result _ _ _) as [s|e|] eqn:F; cbn [rbind]; try discriminate. intros [= <-]. constructor.
      apply (service_fields _ (fields_distinct l)) in F as (ops & rs & A & B & C & ->). exists t, ops, rs. auto.
    + inversion 1 as [| | | | | |? s (t & ops & rs & V & A & B & C & ->)| |]; subst. rewrite V. cbn [as_string rbind].
      assert (F : fold_result service_step (fields_of l) (SvB t [] [] []) = Ok (SvB t ops rs [])) by (apply (service_fields _ (fields_distinct l)); exists ops, rs; auto). rewrite F. reflexivity.
  - cbn [body_read]. split.
    + destruct (fold_result _ _ _) as [s|e|] eqn:F; cbn [rbind]; try discriminate. intros [= <-]. constructor.
      apply (operation_fields _ (fields_distinct l)) in F as (i & u & es & A & B & C & D & ->). exists i, u, es. destruct i, u; auto.
    + inversion 1 as [| | | | | | |? s (i & u & es & A & B & C & D & ->)|]; subst.
      assert (F : fold_result operation_step (fields_of l) (OpB None None []) = Ok (OpB i u es)).
      { apply (operation_fields _ (fields_distinct l)). exists i, u, es. destruct i, u; auto. }
      rewrite F. reflexivity.
  - cbn [body_read]. split.
    + destruct (fold_result _ _ _) as [s|e|] eqn:F; cbn [rbind]; try discriminate. intros [= <-]. constructor.
      apply (resource_fields _ (fields_distinct l)) in F as (n0 & n1 & n2 & n3 & n4 & n5 & n6 & n7 & n8 & n9 & F). exists n0, n1, n2, n3, n4, n5, n6, n7, n8, n9.
      destruct F as (A0 & A1 & A2 & A3 & A4 & A5 & A6 & A7 & A8 & A9 & C & ->). do 11 (split; [assumption|]). destruct n1, n2, n3, n4, n5, n6; reflexivity.
    + inversion 1 as [| | | | | | | |? s (n0 & n1 & n2 & n3 & n4 & n5 & n6 & n7 & n8 & n9 & F)]; subst. destruct F as (A0 & A1 & A2 & A3 & A4 & A5 & A6 & A7 & A8 & A9 & C & ->).
      assert (F : fold_result resource_step (fields_of l) (RsB [] None None None None None None [] [] []) = Ok (RsB (hm_from_list ident_key_eqb n0) n1 n2 n3 n4 n5 n6 n7 n8 n9)).
      { apply (resource_fields _ (fields_distinct l)). exists n0, n1, n2, n3, n4, n5, n6, n7, n8, n9. do 11 (split; [assumption|]). destruct n1, n2, n3, n4, n5, n6; reflexivity. }
      rewrite F. reflexivity.
Qed.
Lemma body_read_panic n b : short_identifier n -> raw_body_ok b -> body_read n b = Panic -> alarming f64_parse b.
Proof.
  intros S O P. destruct b as [s|ms|ms|ms|ms|ms|l|l|l]; cbn [raw_body_ok] in O; try (cbn [body_read] in P; discriminate P).
  - exfalso. cbn [body_read] in P. unfold list_read in P. destruct ms as [|m [|m' ms]]; cbn [map] in P; try discriminate. destruct (ident_eqb _ _); discriminate.
  - exfalso. cbn [body_read] in P. unfold list_read in P. destruct ms as [|m [|m' ms]]; cbn [map] in P; try discriminate. destruct (ident_eqb _ _); discriminate.
  - exfalso. apply (proj2 (map_read n ms S O) P).
  - cbn [body_read] in P. destruct (field_of (fields_of l) "version") as [v|] eqn:V; [|apply al_version; intros t E; congruence].
    destruct v as [| | | |t|]; try (apply al_version; intros t' E; congruence). cbn [as_string rbind] in P.
    destruct (fold_result _ _ _) as [s|e|] eqn:F; try discriminate. apply al_service, (service_panic _ _ F).
  - cbn [body_read] in P. destruct (fold_result _ _ _) as [s|e|] eqn:F; try discriminate. apply al_operation, (operation_panic _ _ F).
  - cbn [body_read] in P. destruct (fold_result _ _ _) as [s|e|] eqn:F; try discriminate. apply al_resource, (resource_panic _ _ F).
Qed.

(** ** Statements and documents *)
Lemma raw_step_ok s b b' : raw_statement_ok s -> raw_step s b = Ok b' <-> exists sb, statement_means f64_parse s sb /\ b' = bd_insert b sb.
Proof.
  intros O. destruct s as [docs ts n x|r t]; cbn [raw_step raw_statement_ok] in *.
  - destruct O as (_ & S & BO). split.
    + destruct (body_read n x) as [y|e|] eqn:R; cbn [rbind]; try discriminate. intros [= <-]. eexists. split; [constructor; apply (body_read_ok _ _ _ S BO), R|reflexivity].
    + intros (sb & M & ->). inversion M as [? ? ? ? y B]; subst. apply (body_read_ok _ _ _ S BO) in B. rewrite B. reflexivity.
  - split; [discriminate|]. intros (sb & M & _). inversion M.
Qed.
Definition alarming_statement (s : raw_statement) : Prop := exists docs ts n b, s = RShape docs ts n b /\ alarming f64_parse b.
Lemma raw_step_panic s b : raw_statement_ok s -> raw_step s b = Panic -> alarming_statement s.
Proof.
  intros O. destruct s as [docs ts n x|r t]; cbn [raw_step raw_statement_ok] in *; [|discriminate].
  destruct O as (_ & S & BO). destruct (body_read n x) as [y|e|] eqn:R; cbn [rbind]; try discriminate. intros _. exists docs, ts, n, x. split; [reflexivity|apply (body_read_panic _ _ S BO R)].
Qed.
Lemma stepped_ok l : Forall raw_statement_ok l -> forall b b', stepped raw_step l b = Ok b' <-> exists sbs, Forall2 (statement_means f64_parse) l sbs /\ b' = bd_all b sbs.
Proof.
  unfold stepped. induction 1 as [|s l O F IH]; intros b b'; cbn [fold_result].
  - split; [intros [= <-]; exists []; split; [constructor|reflexivity]|intros (sbs & F & ->); inversion F; reflexivity].
  - split.
    + destruct (raw_step s b) as [b1|e|] eqn:R; try discriminate. intros E. apply IH in E as (sbs & E & ->). apply (raw_step_ok _ _ _ O) in R as (sb & M & ->).
      exists (sb :: sbs). split; [constructor; assumption|reflexivity].
    + intros (sbs & G & ->). inversion G as [|? sb ? sbs' M G']; subst. assert (R : raw_step s b = Ok (bd_insert b sb)) by (apply (raw_step_ok _ _ _ O); eauto). rewrite R.
      apply IH. exists sbs'. auto.
Qed.
Lemma stepped_panic l : Forall raw_statement_ok l -> forall b, stepped raw_step l b = Panic -> Exists alarming_statement l.
Proof.
  intros F b P. unfold stepped in P. apply fold_panic in P as (b' & s & I & P). apply Exists_exists. exists s. split; [exact I|]. rewrite Forall_forall in F. apply (raw_step_panic _ _ (F _ I) P).
Qed.
Definition raw_result (d : raw_document) (v : version) : result model :=
  b <- stepped raw_step (rw_statements (rw_section d)) (bd_all (Builder (rw_namespace (rw_section d)) v [] []) (map import_builder (rw_uses (rw_section d)))) ;;
  build (fold_left (fun b e => bd_metadata_insert b (fst e) (snd e)) (meta_of f64_parse (rw_metadata d)) b).
Lemma parse_raw d : raw_document_ok d -> parse_model f64_parse (raw_document_text d) = (v <- asked_step f64_parse (rw_control d) ;; raw_result d v).
Proof.
  intros (CO & MO & DN & AI & ST).
  exact (parse_any f64_parse raw_statement_text raw_step raw_solid raw_no_use (rw_namespace (rw_section d)) (rw_uses (rw_section d)) (rw_statements (rw_section d))
           (rw_control d) (rw_metadata d) true CO MO (fun _ => conj DN (conj AI (Forall_impl _ raw_states ST)))).
Qed.
Lemma raw_run d sbs v : raw_document_ok d -> builder_run (Builder (rw_namespace (rw_section d)) v [] []) (raw_calls f64_parse d sbs)
  = Ok (fold_left (fun b e => bd_metadata_insert b (fst e) (snd e)) (meta_of f64_parse (rw_metadata d))
          (bd_all (bd_all (Builder (rw_namespace (rw_section d)) v [] []) (map import_builder (rw_uses (rw_section d)))) sbs)).
Proof.
  intros (_ & _ & _ & A & _). unfold raw_calls. rewrite !run_app, (run_uses _ A). cbn [rbind]. rewrite run_app.
  assert (R : forall l b, builder_run b (map BoShape l) = Ok (bd_all b l)).
  { induction l as [|x l IH]; intros b; [reflexivity|]. cbn [map builder_run builder_step rbind]. apply IH. }
  rewrite R. cbn [rbind]. rewrite run_metadata. unfold meta_of. rewrite metadata_once; [reflexivity|]. 
  destruct (bd_all_fields sbs (bd_all (Builder (rw_namespace (rw_section d)) v [] []) (map import_builder (rw_uses (rw_section d))))) as (_ & _ & ->).
  destruct (bd_all_fields (map import_builder (rw_uses (rw_section d))) (Builder (rw_namespace (rw_section d)) v [] [])) as (_ & _ & ->). reflexivity.
Qed.
End Facts.
