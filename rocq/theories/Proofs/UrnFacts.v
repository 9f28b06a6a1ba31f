From Verif.Model Require Import Urn.
From Verif.Spec Require Import IdentitySpec UrnSpec.
From Verif.Proofs Require Import BaseFacts IdentityFacts.

Lemma replace_app a b s t : replace_ch a b (s ++ t) = replace_ch a b s ++ replace_ch a b t.
Proof. apply map_app. Qed.
Lemma replace_none a b s : ~ In a s -> replace_ch a b s = s.
Proof.
  induction s as [|c s IH]; intros H; [reflexivity|]. cbn.
  destruct (Ascii.eqb_spec c a) as [->|N]; [destruct H; now left|]. fold (replace_ch a b s). rewrite IH; [reflexivity|].
  intros I; apply H; now right.
Qed.
Lemma replace_back a b s : ~ In b s -> replace_ch b a (replace_ch a b s) = s.
Proof.
  induction s as [|c s IH]; intros H; [reflexivity|]. cbn.
  fold (replace_ch a b s). fold (replace_ch b a (replace_ch a b s)). rewrite IH by (intros I; apply H; now right).
  destruct (Ascii.eqb_spec c a) as [->|N].
  - rewrite Ascii.eqb_refl. reflexivity.
  - destruct (Ascii.eqb_spec c b) as [->|N']; [destruct H; now left|reflexivity].
Qed.
Lemma break_none stop s : (forall c, In c s -> one_of stop c = false) -> break_at stop s = (s, []).
Proof.
  induction s as [|c s IH]; intros H; [reflexivity|]. cbn. rewrite (H c) by now left.
  rewrite IH; [reflexivity|]. intros d I; apply H; now right.
Qed.

Definition urn_tail (i : shape_id) : str :=
  sid_ns i ++ colon :: sid_name i ++ match sid_member i with Some m => slash :: m | None => [] end.
Lemma urn_text_tail i : urn_text i = lit "urn:smithy:" ++ urn_tail i.
Proof. reflexivity. Qed.

Lemma id_text_tail i : valid_id i -> replace_ch dollar slash (replace_ch hash_ch colon (id_text i)) = urn_tail i.
Proof.
  intros (N & S & M). unfold id_text, urn_tail. destruct i as [n s [m|]]; cbn [sid_ns sid_name sid_member] in *.
  - repeat first [rewrite replace_app | change (replace_ch ?a ?b (?c :: ?l)) with ((if Ascii.eqb c a then b else c) :: replace_ch a b l)].
    repeat rewrite (replace_none hash_ch) by (first [solve [apply namespace_no; auto] | solve [apply identifier_no; auto]]).
    repeat rewrite (replace_none dollar) by (first [solve [apply namespace_no; auto] | solve [apply identifier_no; auto]]).
    reflexivity.
  - rewrite !app_nil_r.
    repeat first [rewrite replace_app | change (replace_ch ?a ?b (?c :: ?l)) with ((if Ascii.eqb c a then b else c) :: replace_ch a b l)].
    repeat rewrite (replace_none hash_ch) by (first [solve [apply namespace_no; auto] | solve [apply identifier_no; auto]]).
    repeat rewrite (replace_none dollar) by (first [solve [apply namespace_no; auto] | solve [apply identifier_no; auto]]).
    reflexivity.
Qed.

Lemma tail_id_text i : valid_id i -> replace_ch slash dollar (replace_ch colon hash_ch (urn_tail i)) = id_text i.
Proof.
  intros (N & S & M). unfold id_text, urn_tail. destruct i as [n s [m|]]; cbn [sid_ns sid_name sid_member] in *.
  - repeat first [rewrite replace_app | change (replace_ch ?a ?b (?c :: ?l)) with ((if Ascii.eqb c a then b else c) :: replace_ch a b l)].
    repeat rewrite (replace_none colon) by (first [solve [apply namespace_no; auto] | solve [apply identifier_no; auto]]).
    repeat rewrite (replace_none slash) by (first [solve [apply namespace_no; auto] | solve [apply identifier_no; auto]]).
    reflexivity.
  - rewrite !app_nil_r.
    repeat first [rewrite replace_app | change (replace_ch ?a ?b (?c :: ?l)) with ((if Ascii.eqb c a then b else c) :: replace_ch a b l)].
    repeat rewrite (replace_none colon) by (first [solve [apply namespace_no; auto] | solve [apply identifier_no; auto]]).
    repeat rewrite (replace_none slash) by (first [solve [apply namespace_no; auto] | solve [apply identifier_no; auto]]).
    reflexivity.
Qed.

Lemma tail_chars i : valid_id i -> forallb urn_char (urn_tail i) = true.
Proof.
  intros (N & S & M). apply namespace_chars in N. apply identifier_word in S.
  assert (W : forall l, Forall (fun c => cls_word c = true) l -> forallb urn_char l = true).
  { intros l F. rewrite forallb_forall. rewrite Forall_forall in F. intros c I. specialize (F c I).
    revert F. apply Bool.implb_true_iff. revert c I. intros c _. revert c. apply ascii_sweep. vm_compute. reflexivity. }
  assert (W2 : forall l, Forall (fun c => ns_char c = true) l -> forallb urn_char l = true).
  { intros l F. rewrite forallb_forall. rewrite Forall_forall in F. intros c I. specialize (F c I).
    revert F. apply Bool.implb_true_iff. revert c I. intros c _. revert c. apply ascii_sweep. vm_compute. reflexivity. }
  unfold urn_tail. rewrite forallb_app, (W2 _ N). cbn [forallb]. change (urn_char colon) with true.
  rewrite forallb_app, (W _ S).
  destruct (sid_member i) as [m|]; [|reflexivity]. cbn [forallb]. change (urn_char slash) with true.
  apply identifier_word in M. rewrite (W _ M). reflexivity.
Qed.

Lemma urn_char_stop c : urn_char c = true -> one_of [qmark; hash_ch] c = false.
Proof.
  intros F. apply Bool.negb_true_iff. revert F. apply Bool.implb_true_iff. revert c. apply ascii_sweep. vm_compute. reflexivity.
Qed.

Lemma iri_of_urn t :
  forallb urn_char t = true ->
  iri_from_str (lit "urn:" ++ urn_nid ++ t) = IRI (Some (lit "urn")) None (urn_nid ++ t) None None.
Proof.
  intros F. unfold iri_from_str.
  change (split_scheme (lit "urn:" ++ urn_nid ++ t)) with (Some (lit "urn"), urn_nid ++ t).
  cbv beta iota. change (split_authority (urn_nid ++ t)) with (@None str, urn_nid ++ t). cbv beta iota.
  rewrite break_none; [reflexivity|].
  intros c I. apply urn_char_stop. apply in_app_or in I as [I|I].
  - revert c I. apply Forall_forall. repeat constructor.
  - rewrite forallb_forall in F. auto.
Qed.

Lemma shape_to_iri_eq i : valid_id i -> shape_to_iri i = IRI (Some (lit "urn")) None (urn_nid ++ urn_tail i) None None.
Proof.
  intros V. unfold shape_to_iri. rewrite sid_display_text, id_text_tail by exact V. apply iri_of_urn, tail_chars, V.
Qed.

Lemma strip_prefix_spec p s r : strip_prefix p s = Some r <-> s = p ++ r.
Proof.
  revert s; induction p as [|a p IH]; intros s; cbn; [split; congruence|].
  destruct s as [|c s]; [split; discriminate|].
  destruct (Ascii.eqb_spec a c) as [->|N].
  - rewrite IH. split; [intros ->; reflexivity|congruence].
  - split; [discriminate|congruence].
Qed.

Lemma iri_to_shape_iff i id :
  iri_to_shape i = Ok id
  <-> valid_id id /\ iri_scheme i = Some (lit "urn") /\ iri_path i = urn_nid ++ urn_tail id.
Proof.
  unfold iri_to_shape. split.
  - destruct (iri_scheme i) as [s|]; [|discriminate].
    destruct (str_eqb s (lit "urn")) eqn:E; [|discriminate]. apply str_eqb_eq in E as ->.
    destruct (strip_prefix urn_nid (iri_path i)) as [p|] eqn:P; [|discriminate].
    apply strip_prefix_spec in P. destruct (forallb urn_char p) eqn:F; [|discriminate].
    destruct (sid_from_str _) as [x| |] eqn:E; [|discriminate|discriminate]. intros [= ->].
    apply sid_from_str_sound in E as [V E]. split; [exact V|]. split; [reflexivity|].
    rewrite P. f_equal.
    assert (ND : ~ In dollar p /\ ~ In hash_ch p).
    { rewrite forallb_forall in F. split; intros I; specialize (F _ I); vm_compute in F; discriminate. }
    rewrite <- (id_text_tail id V), <- E.
    destruct ND as [ND NH].
    (* undo the replacements, from the outside *)
    assert (E1 : replace_ch hash_ch colon (replace_ch slash dollar (replace_ch colon hash_ch p))
                 = replace_ch slash dollar p).
    { clear - NH. unfold replace_ch. rewrite !map_map. apply map_ext_in. intros c I.
      destruct (Ascii.eqb_spec c colon) as [->|N1]; [reflexivity|].
      destruct (Ascii.eqb_spec c slash) as [->|N2]; [reflexivity|].
      destruct (Ascii.eqb_spec c hash_ch) as [->|N3]; [destruct (NH I)|reflexivity]. }
    rewrite E1. symmetry. apply replace_back. exact ND.
  - intros (V & -> & ->). rewrite str_eqb_refl.
    rewrite (proj2 (strip_prefix_spec urn_nid _ (urn_tail id)) eq_refl).
    rewrite (tail_chars _ V), (tail_id_text _ V), (sid_from_str_complete _ V). reflexivity.
Qed.
