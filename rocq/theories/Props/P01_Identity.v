(** C01-C07: names and shape ids (atelier-core/src/model/identity.rs). *)
From Verif.Model Require Import Identity.
From Verif.Spec Require Import IdentitySpec.
From Verif.Proofs Require Import BaseFacts RegexFacts IdentityFacts.

(* ---------------------------------------------------------------- C01 *)
Theorem C01_identifier_grammar :
  forall s : str,
    ((exists i, ident_from_str s = Ok i) <-> is_identifier s)
    /\ (ident_is_valid s = true <-> is_identifier s)
    /\ (forall i, ident_from_str s = Ok i -> ident_display i = s)
    /\ (~ is_identifier s -> ident_from_str s = Err (EInvalidShapeID s)).
Proof.
  intros s. pose proof (ident_is_valid_spec s) as V. unfold ident_from_str, ident_display.
  destruct (ident_is_valid s).
  - assert (I : is_identifier s) by tauto.
    split; [split; eauto|]. split; [exact V|]. split; [congruence|tauto].
  - assert (I : ~ is_identifier s) by (rewrite <- V; discriminate).
    split; [split; [intros [i E]; discriminate|tauto]|]. split; [exact V|]. split; [discriminate|reflexivity].
Qed.
Print Assumptions C01_identifier_grammar.

Example C01_ex_valid : is_identifier "__Foo_1".
Proof. apply ident_is_valid_spec. reflexivity. Qed.
Example C01_ex_invalid : ~ is_identifier "1Foo" /\ ~ is_identifier "___" /\ ~ is_identifier "".
Proof. repeat split; rewrite <- ident_is_valid_spec; vm_compute; discriminate. Qed.

(* ---------------------------------------------------------------- C02 *)
Theorem C02_namespace_grammar :
  forall s : str,
    ((exists n, ns_from_str s = Ok n) <-> is_namespace s)
    /\ (ns_is_valid s = true <-> is_namespace s)
    /\ (forall n, ns_from_str s = Ok n -> n = s)
    /\ (is_namespace s -> Forall is_identifier (ns_split s))
    /\ join ["."%char] (ns_split s) = s
    /\ (forall ids, ids <> [] -> Forall is_identifier ids ->
                    ns_split (join ["."%char] ids) = ids).
Proof.
  intros s. pose proof (ns_is_valid_spec s) as V. unfold ns_from_str.
  assert (J : join ["."%char] (ns_split s) = s) by apply (join_split dot).
  assert (L : is_namespace s -> Forall is_identifier (ns_split s)).
  { intros Hs. apply V in Hs. unfold ns_is_valid in Hs. rewrite forallb_forall in Hs.
    apply Forall_forall. intros x Hx. apply ident_is_valid_spec. auto. }
  assert (K : forall ids, ids <> [] -> Forall is_identifier ids -> ns_split (join ["."%char] ids) = ids).
  { intros ids Hn Hi. eapply ns_split_spec; eauto. }
  destruct (ns_is_valid s).
  - assert (I : is_namespace s) by tauto.
    split; [split; eauto|]. split; [exact V|]. split; [congruence|auto].
  - assert (I : ~ is_namespace s) by (rewrite <- V; discriminate).
    split; [split; [intros [i E]; discriminate|tauto]|]. split; [exact V|]. split; [discriminate|auto].
Qed.
Print Assumptions C02_namespace_grammar.

Example C02_ex : is_namespace "smithy.api" /\ ns_split "smithy.api" = [lit "smithy"; lit "api"]
                 /\ ~ is_namespace "a..b" /\ ~ is_namespace "".
Proof.
  split; [apply ns_is_valid_spec; reflexivity|]. split; [reflexivity|].
  split; rewrite <- ns_is_valid_spec; vm_compute; discriminate.
Qed.

(* ---------------------------------------------------------------- C03 *)
Theorem C03_parse_display :
  forall i : shape_id, valid_id i -> sid_from_str (sid_display i) = Ok i.
Proof. intros i H. rewrite sid_display_text. apply sid_from_str_complete; exact H. Qed.
Print Assumptions C03_parse_display.

Theorem C03_display_parse :
  forall (s : str) (i : shape_id), sid_from_str s = Ok i -> sid_display i = s /\ valid_id i.
Proof. intros s i H. apply sid_from_str_sound in H as [V E]. rewrite sid_display_text. auto. Qed.
Print Assumptions C03_display_parse.

Theorem C03_is_valid :
  forall s : str,
    (sid_is_valid s = true <-> exists i, sid_from_str s = Ok i)
    /\ (sid_is_valid s = true <-> exists i, valid_id i /\ s = id_text i)
    /\ sid_from_str s <> Panic.
Proof.
  intros s. split; [apply sid_is_valid_spec|]. split; [|apply sid_from_str_not_panic].
  rewrite sid_is_valid_spec. split.
  - intros (i & H). exists i. apply sid_from_str_sound; exact H.
  - intros (i & V & ->). exists i. apply sid_from_str_complete; exact V.
Qed.
Print Assumptions C03_is_valid.

Theorem C03_display_injective :
  forall i j : shape_id, valid_id i -> valid_id j -> sid_display i = sid_display j -> i = j.
Proof. intros i j Hi Hj E. rewrite !sid_display_text in E. apply id_text_inj; assumption. Qed.
Print Assumptions C03_display_injective.

Example C03_ex : valid_id (SID "foo.bar" "Baz" (Some (lit "qux")))
                 /\ sid_from_str "foo.bar#Baz$qux" = Ok (SID "foo.bar" "Baz" (Some (lit "qux"))).
Proof.
  assert (E : sid_from_str "foo.bar#Baz$qux" = Ok (SID "foo.bar" "Baz" (Some (lit "qux")))) by reflexivity.
  split; [|exact E]. apply C03_display_parse in E. apply E.
Qed.

(** Without validity the text is ambiguous: [new_unchecked] may hide separators in the parts. *)
Example C03_unchecked_ambiguous :
  exists i j, i <> j /\ sid_display i = sid_display j.
Proof. exists (SID "a" "b$c" None), (SID "a" "b" (Some (lit "c"))). split; [discriminate|reflexivity]. Qed.

(* ---------------------------------------------------------------- C04 *)
Theorem C04_equality_is_equivalence :
  (forall a, sid_eqb a a = true)
  /\ (forall a b, sid_eqb a b = sid_eqb b a)
  /\ (forall a b c, sid_eqb a b = true -> sid_eqb b c = true -> sid_eqb a c = true)
  /\ (forall a, ident_eqb a a = true)
  /\ (forall a b, ident_eqb a b = ident_eqb b a)
  /\ (forall a b c, ident_eqb a b = true -> ident_eqb b c = true -> ident_eqb a c = true)
  /\ (forall a, ns_eqb a a = true)
  /\ (forall a b, ns_eqb a b = ns_eqb b a)
  /\ (forall a b c, ns_eqb a b = true -> ns_eqb b c = true -> ns_eqb a c = true).
Proof.
  repeat split; first
    [ exact sid_eqb_refl | exact sid_eqb_sym | exact sid_eqb_trans
    | exact ident_eqb_refl | exact ident_eqb_sym | exact ident_eqb_trans ].
Qed.
Print Assumptions C04_equality_is_equivalence.

Theorem C04_equality_ignores_case :
  forall i j : shape_id,
    valid_id i -> valid_id j ->
    (sid_eqb i j = true <-> lower (sid_display i) = lower (sid_display j)).
Proof.
  intros i j Hi Hj. rewrite !sid_display_text. rewrite sid_eqb_spec.
  assert (L : forall k, lower (id_text k)
                        = id_text (SID (lower (sid_ns k)) (lower (sid_name k)) (option_map lower (sid_member k)))).
  { intros [n s [m|]]; unfold id_text; cbn; unfold lower; rewrite map_app; cbn; rewrite map_app; reflexivity. }
  rewrite !L. split.
  - intros (-> & -> & ->). reflexivity.
  - intros E. apply id_text_inj in E; [inversion E; auto| |].
    + destruct i as [n s [m|]], Hi as (H1 & H2 & H3); repeat split; cbn in *; auto using lower_namespace, lower_identifier.
    + destruct j as [n s [m|]], Hj as (H1 & H2 & H3); repeat split; cbn in *; auto using lower_namespace, lower_identifier.
Qed.
Print Assumptions C04_equality_ignores_case.

Theorem C04_lowercase_preserves_validity :
  (forall s, is_identifier s -> is_identifier (lower s))
  /\ (forall s, is_namespace s -> is_namespace (lower s))
  /\ (forall s, lower (lower s) = lower s).
Proof. split; [exact lower_identifier|]. split; [exact lower_namespace|exact lower_idem]. Qed.
Print Assumptions C04_lowercase_preserves_validity.

Example C04_ex : sid_eqb (SID "Foo.bar" "Baz" None) (SID "foo.BAR" "baZ" None) = true
                 /\ sid_eqb (SID "foo" "Baz" None) (SID "foo" "Baz" (Some (lit "x"))) = false.
Proof. split; reflexivity. Qed.

(* ---------------------------------------------------------------- C05 *)
Definition C05_equal_ids_hash_equally : Prop :=
  forall (H : Hasher) (a b : shape_id), sid_eqb a b = true -> hash_sid a = hash_sid b.

(** A hasher that looks at the first byte of the shape name (any seeded hash separating the two
    texts will do). *)
Definition first_byte_hasher : Hasher :=
  {| hash_str := fun s => match s with c :: _ => Z.of_N (ch_N c) | [] => 0%Z end;
     hash_sid := fun i => match sid_name i with c :: _ => Z.of_N (ch_N c) | [] => 0%Z end |}.

Theorem C05_equal_ids_hash_equally_refuted :
  ~ C05_equal_ids_hash_equally
  /\ exists (H : Hasher) (a b : shape_id),
       valid_id a /\ valid_id b /\ sid_eqb a b = true /\ sid_key_eqb a b = false.
Proof.
  split.
  - intros C. specialize (C first_byte_hasher (SID "n" "Foo" None) (SID "n" "foo" None) eq_refl).
    vm_compute in C. discriminate.
  - exists first_byte_hasher, (SID "n" "Foo" None), (SID "n" "foo" None).
    split; [apply (proj1 (sid_from_str_sound "n#Foo" _ eq_refl))|].
    split; [apply (proj1 (sid_from_str_sound "n#foo" _ eq_refl))|]. split; reflexivity.
Qed.
Print Assumptions C05_equal_ids_hash_equally_refuted.

(** What does hold for every hash function: ids with the same text match, matching ids are [==],
    and matching is an equivalence (so a map keyed by ids is well behaved). *)
Theorem C05_key_match :
  forall H : Hasher,
    (forall a, sid_key_eqb a a = true)
    /\ (forall a b, sid_key_eqb a b = sid_key_eqb b a)
    /\ (forall a b c, sid_key_eqb a b = true -> sid_key_eqb b c = true -> sid_key_eqb a c = true)
    /\ (forall a b, sid_key_eqb a b = true -> sid_eqb a b = true).
Proof.
  intros H. split; [exact sid_key_refl|]. split; [exact sid_key_sym|].
  split; [exact sid_key_trans|exact sid_key_eq].
Qed.
Print Assumptions C05_key_match.

(* ---------------------------------------------------------------- C06 *)
Theorem C06_total_order :
  (forall a b, sid_cmp a b = Eq <-> a = b)
  /\ (forall a b, sid_cmp b a = CompOpp (sid_cmp a b))
  /\ (forall a b c, sid_cmp a b = Lt -> sid_cmp b c = Lt -> sid_cmp a c = Lt)
  /\ (forall a b, ident_cmp a b = Eq <-> a = b)
  /\ (forall a b, ident_cmp b a = CompOpp (ident_cmp a b))
  /\ (forall a b c, ident_cmp a b = Lt -> ident_cmp b c = Lt -> ident_cmp a c = Lt).
Proof.
  split; [exact sid_cmp_eq|]. split; [exact sid_cmp_antisym|]. split; [exact sid_cmp_lt_trans|].
  split; [exact str_cmp_eq|]. split; [exact str_cmp_antisym|exact str_cmp_lt_trans].
Qed.
Print Assumptions C06_total_order.

(** Which order it is. *)
Lemma str_cmp_before a : forall b, str_cmp a b = Lt <-> text_before a b.
Proof.
  induction a as [|x a IH]; intros [|y b]; cbn [str_cmp].
  - split; [discriminate|]. intros [(c & r & E)|(p & x & y & r1 & r2 & E & _)]; [discriminate|destruct p; discriminate].
  - split; [|reflexivity]. intros _. left. exists y, b. reflexivity.
  - split; [discriminate|]. intros [(c & r & E)|(p & u & v & r1 & r2 & _ & E & _)]; [discriminate|destruct p; discriminate].
  - destruct (N.compare_spec (ch_N x) (ch_N y)) as [E|L|L].
    + apply ch_N_inj in E. subst y. rewrite IH. split.
      * intros [(c & r & ->)|(p & u & v & r1 & r2 & -> & -> & L)]; [left; exists c, r; reflexivity|].
        right. exists (x :: p), u, v, r1, r2. auto.
      * intros [(c & r & E)|(p & u & v & r1 & r2 & E1 & E2 & L)].
        { injection E as ->. left. eauto. }
        destruct p as [|z p]; cbn in E1, E2; injection E1; injection E2; intros; subst.
        { exfalso. exact (N.lt_irrefl _ L). }
        right. exists p, u, v, r1, r2. auto.
    + split; [|reflexivity]. intros _. right. exists [], x, y, a, b. auto.
    + split; [discriminate|]. intros [(c & r & E)|(p & u & v & r1 & r2 & E1 & E2 & L')].
      * injection E as -> ->. exfalso. exact (N.lt_irrefl _ L).
      * destruct p as [|z p]; cbn in E1, E2; injection E1; injection E2; intros; subst; exfalso.
        { exact (N.lt_irrefl _ (N.lt_trans _ _ _ L L')). }
        { exact (N.lt_irrefl _ L). }
Qed.
Theorem C06_dictionary_order :
  (forall a b, ident_cmp a b = Lt <-> text_before a b)
  /\ (forall a b, sid_cmp a b = Lt <-> id_before a b).
Proof.
  split; [exact str_cmp_before|]. intros a b. unfold sid_cmp, id_before.
  pose proof (str_cmp_before (sid_ns a) (sid_ns b)) as B1. pose proof (str_cmp_eq (sid_ns a) (sid_ns b)) as E1.
  pose proof (str_cmp_before (sid_name a) (sid_name b)) as B2. pose proof (str_cmp_eq (sid_name a) (sid_name b)) as E2.
  destruct (str_cmp (sid_ns a) (sid_ns b)); [|intuition congruence|intuition congruence].
  destruct (str_cmp (sid_name a) (sid_name b)); [|intuition congruence|intuition congruence].
  destruct (sid_member a) as [x|], (sid_member b) as [y|]; try rewrite (str_cmp_before x y); intuition congruence.
Qed.
Print Assumptions C06_dictionary_order.

Definition C06_cmp_consistent_with_eq : Prop :=
  forall a b : shape_id, sid_cmp a b = Eq <-> sid_eqb a b = true.

Theorem C06_cmp_consistent_with_eq_refuted :
  ~ C06_cmp_consistent_with_eq
  /\ exists a b, valid_id a /\ valid_id b /\ sid_eqb a b = true /\ sid_cmp a b = Lt.
Proof.
  split.
  - intros C. destruct (C (SID "n" "Foo" None) (SID "n" "foo" None)) as [_ C2].
    specialize (C2 eq_refl). vm_compute in C2. discriminate.
  - exists (SID "n" "Foo" None), (SID "n" "foo" None).
    split; [apply (proj1 (sid_from_str_sound "n#Foo" _ eq_refl))|].
    split; [apply (proj1 (sid_from_str_sound "n#foo" _ eq_refl))|]. split; reflexivity.
Qed.
Print Assumptions C06_cmp_consistent_with_eq_refuted.

(* ---------------------------------------------------------------- C07 *)
Theorem C07_shape_only :
  forall i : shape_id,
    sid_ns (sid_shape_only i) = sid_ns i
    /\ sid_name (sid_shape_only i) = sid_name i
    /\ sid_member (sid_shape_only i) = None
    /\ sid_shape_only (sid_shape_only i) = sid_shape_only i
    /\ (valid_id i -> valid_id (sid_shape_only i)).
Proof.
  intros [n s [m|]]; cbn; repeat (split; [reflexivity|]); unfold valid_id; cbn; tauto.
Qed.
Print Assumptions C07_shape_only.

Theorem C07_make_member_and_shape :
  forall (i : shape_id) (x : str),
    sid_make_member i x = SID (sid_ns i) (sid_name i) (Some x)
    /\ sid_make_shape i x = SID (sid_ns i) x (sid_member i)
    /\ sid_shape_only (sid_make_member i x) = sid_shape_only i
    /\ (forall m, sid_member i = Some m -> sid_make_member (sid_shape_only i) m = i)
    /\ (valid_id i -> is_identifier x -> valid_id (sid_make_member i x) /\ valid_id (sid_make_shape i x)).
Proof.
  intros [n s [m|]] x; unfold valid_id; cbn; repeat (split; [reflexivity|]);
    (split; [intros m0 E; try congruence; injection E as ->; reflexivity | tauto]).
Qed.
Print Assumptions C07_make_member_and_shape.

Theorem C07_is_valid_member :
  forall a b : shape_id,
    (sid_is_valid_member a b = true <->
       sid_member a = None /\ sid_member b <> None
       /\ lower (sid_ns a) = lower (sid_ns b) /\ lower (sid_name a) = lower (sid_name b))
    /\ (sid_member b <> None -> sid_is_valid_member (sid_shape_only b) b = true).
Proof.
  intros a b.
  assert (E : sid_is_valid_member a b = true <->
       sid_member a = None /\ sid_member b <> None
       /\ lower (sid_ns a) = lower (sid_ns b) /\ lower (sid_name a) = lower (sid_name b)).
  { unfold sid_is_valid_member, sid_same_ns, sid_is_member. rewrite !andb_true_iff, negb_true_iff, ns_eqb_spec, ident_eqb_spec.
    destruct (sid_member a), (sid_member b); intuition congruence. }
  split; [exact E|]. intros Hb. unfold sid_is_valid_member, sid_same_ns, sid_is_member.
  unfold sid_shape_only, sid_is_member. destruct b as [n s [m|]]; cbn in *; [|congruence].
  unfold ns_eqb, ident_eqb. rewrite !str_eqb_refl. reflexivity.
Qed.
Print Assumptions C07_is_valid_member.

Theorem C07_constructors_check :
  forall n s m : str,
    (forall i, sid_shape n s = Ok i <-> (is_namespace n /\ is_identifier s /\ i = SID n s None))
    /\ (forall i, sid_member_of n s m = Ok i <->
          (is_namespace n /\ is_identifier s /\ is_identifier m /\ i = SID n s (Some m)))
    /\ (sid_shape n s = Panic <-> ~ (is_namespace n /\ is_identifier s)).
Proof.
  intros n s m. unfold sid_shape, sid_member_of, ns_from_str, ident_from_str, sid_new.
  pose proof (ns_is_valid_spec n) as Vn. pose proof (ident_is_valid_spec s) as Vs.
  pose proof (ident_is_valid_spec m) as Vm.
  destruct (ns_is_valid n), (ident_is_valid s), (ident_is_valid m); intuition congruence.
Qed.
Print Assumptions C07_constructors_check.
