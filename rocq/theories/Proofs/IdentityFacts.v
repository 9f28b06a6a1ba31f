(** Facts about names and shape ids. *)
From Verif.Model Require Import Identity.
From Verif.Spec Require Import IdentitySpec.
From Verif.Proofs Require Import BaseFacts RegexFacts.

Lemma cls_word_spec c :
  cls_word c = true <-> is_alpha c = true \/ is_digit c = true \/ c = "_"%char.
Proof.
  unfold cls_word, is_alnum. rewrite !orb_true_iff, Ascii.eqb_eq. unfold underscore.
  split; intros H; intuition congruence.
Qed.

Lemma star_underscore s : denotes (RStar (rchar underscore)) s <-> Forall (fun x => x = "_"%char) s.
Proof.
  unfold rchar. rewrite denotes_star_class. split; apply Forall_impl; intros a.
  - rewrite Ascii.eqb_eq. unfold underscore; congruence.
  - intros ->. apply Ascii.eqb_refl.
Qed.

Lemma re_ident_spec s : denotes re_ident s <-> is_identifier s.
Proof.
  unfold re_ident, is_identifier. rewrite denotes_cat. split.
  - intros (u & v & -> & Hu & Hv). apply star_underscore in Hu.
    apply denotes_cat in Hv as (w & r & -> & Hw & Hr).
    apply denotes_class in Hw as (c & -> & Hc). apply denotes_star_class in Hr.
    exists u, c, r. repeat split; auto.
    revert Hr; apply Forall_impl; intros a; apply cls_word_spec.
  - intros (us & c & rest & -> & Hu & Hc & Hr). exists us, (c :: rest). split; [reflexivity|]. split.
    + apply star_underscore; assumption.
    + apply denotes_cat. exists [c], rest. split; [reflexivity|]. split.
      * apply denotes_class; eauto.
      * apply denotes_star_class. revert Hr; apply Forall_impl; intros a; apply cls_word_spec.
Qed.

Lemma re_ident_ss_spec s : denotes re_ident_ss s <-> is_identifier s.
Proof.
  rewrite <- re_ident_spec. unfold re_ident, re_ident_ss. rewrite !denotes_cat.
  split; intros (u & v & -> & Hu & Hv); exists u, v; split; try reflexivity; split; auto;
    rewrite denotes_cat in *; destruct Hv as (w & r & -> & Hw & Hr); exists w, r; split; try reflexivity;
    split; auto; [rewrite denotes_star_star in Hr | rewrite denotes_star_star]; assumption.
Qed.

Lemma ident_is_valid_spec s : ident_is_valid s = true <-> is_identifier s.
Proof. unfold ident_is_valid. rewrite rmatch_denotes. apply re_ident_spec. Qed.

(** Characters of identifiers. *)
Lemma identifier_word s : is_identifier s -> Forall (fun c => cls_word c = true) s.
Proof.
  intros (us & c & rest & -> & Hu & Hc & Hr). apply Forall_app; split.
  - revert Hu; apply Forall_impl; intros a ->. reflexivity.
  - constructor; [apply cls_word_spec; auto|].
    revert Hr; apply Forall_impl; intros a; apply cls_word_spec.
Qed.
Lemma word_not_sep c : cls_word c = true -> c <> dot /\ c <> hash_ch /\ c <> dollar.
Proof.
  intros H. repeat split; intros ->; vm_compute in H; discriminate.
Qed.
Lemma identifier_no c s : is_identifier s -> cls_word c = false -> ~ In c s.
Proof.
  intros H Hc Hin. apply identifier_word in H. rewrite Forall_forall in H. rewrite (H _ Hin) in Hc. discriminate.
Qed.
Lemma identifier_nonempty s : is_identifier s -> s <> [].
Proof. intros (us & c & rest & -> & _) E. destruct us; discriminate. Qed.

Definition ns_char (c : ascii) : bool := cls_word c || Ascii.eqb c dot.
Lemma namespace_chars s : is_namespace s -> Forall (fun c => ns_char c = true) s.
Proof.
  intros (ids & _ & H & ->). induction H as [|x l Hx Hl IH]; cbn; [constructor|].
  assert (Hx' : Forall (fun c => ns_char c = true) x).
  { apply identifier_word in Hx. revert Hx; apply Forall_impl; intros a; unfold ns_char; intros ->; reflexivity. }
  destruct l as [|y l]; [exact Hx'|].
  apply Forall_app; split; [exact Hx'|]. constructor; [reflexivity|exact IH].
Qed.
Lemma namespace_no c s : is_namespace s -> ns_char c = false -> ~ In c s.
Proof.
  intros H Hc Hin. apply namespace_chars in H. rewrite Forall_forall in H. rewrite (H _ Hin) in Hc. discriminate.
Qed.
Lemma namespace_nonempty s : is_namespace s -> s <> [].
Proof.
  intros (ids & Hn & H & ->) E. destruct H as [|x l Hx Hl]; [congruence|].
  apply identifier_nonempty in Hx. destruct x; [congruence|]. destruct l; discriminate.
Qed.
Lemma identifier_is_namespace s : is_identifier s -> is_namespace s.
Proof. intros H; exists [s]. repeat split; [discriminate|repeat constructor; assumption]. Qed.

Lemma ns_is_valid_spec s : ns_is_valid s = true <-> is_namespace s.
Proof.
  unfold ns_is_valid. rewrite forallb_forall. split.
  - intros H. exists (split_on dot s). split; [apply split_on_nonempty|]. split.
    + apply Forall_forall. intros x Hx. apply ident_is_valid_spec; auto.
    + symmetry; apply (join_split dot).
  - intros (ids & Hn & H & ->) x Hx. change ["."%char] with [dot] in Hx.
    rewrite split_join in Hx; auto.
    + rewrite Forall_forall in H. apply ident_is_valid_spec; auto.
    + revert H; apply Forall_impl. intros a Ha. apply identifier_no; [assumption|reflexivity].
Qed.
Lemma ns_split_spec s ids :
  ids <> [] -> Forall is_identifier ids -> s = join [dot] ids -> ns_split s = ids.
Proof.
  intros Hn H ->. unfold ns_split. apply split_join; auto.
  revert H; apply Forall_impl. intros a Ha. apply identifier_no; [assumption|reflexivity].
Qed.

(** The namespace part of RE_SHAPE_ID is the namespace grammar. *)
Lemma join_concat_dot x l : x ++ concat (map (cons dot) l) = join [dot] (x :: l).
Proof.
  revert x; induction l as [|y l IH]; intros x; [cbn; apply app_nil_r|].
  change (join [dot] (x :: y :: l)) with (x ++ dot :: join [dot] (y :: l)). rewrite <- IH. reflexivity.
Qed.
Lemma re_sid_ns_spec s : denotes re_sid_ns s <-> is_namespace s.
Proof.
  unfold re_sid_ns. rewrite denotes_cat. split.
  - intros (u & v & -> & Hu & Hv). apply re_ident_ss_spec in Hu.
    apply denotes_star_list in Hv as (l & -> & Hl).
    assert (exists ids, l = map (cons dot) ids /\ Forall is_identifier ids) as (ids & -> & Hi).
    { clear Hu. induction Hl as [|x l Hx Hl IH]; [exists []; split; [reflexivity|constructor]|].
      destruct IH as (ids & -> & Hi). apply denotes_cat in Hx as (a & b & -> & Ha & Hb).
      apply denotes_char in Ha as ->. apply re_ident_spec in Hb.
      exists (b :: ids). split; [reflexivity|constructor; assumption]. }
    exists (u :: ids). split; [discriminate|]. split; [constructor; assumption|]. apply join_concat_dot.
  - intros (ids & Hn & H & ->). destruct H as [|x l Hx Hl]; [congruence|].
    exists x, (concat (map (cons dot) l)). split; [symmetry; apply join_concat_dot|]. split.
    + apply re_ident_ss_spec; assumption.
    + apply denotes_star_list. eexists; split; [reflexivity|].
      apply Forall_map. revert Hl; apply Forall_impl. intros a Ha.
      apply denotes_cat. exists [dot], a. split; [reflexivity|]. split; [apply denotes_char; reflexivity|apply re_ident_spec; assumption].
Qed.

Lemma re_sid_member_spec s :
  denotes re_sid_member s <-> s = [] \/ exists m, s = dollar :: m /\ is_identifier m.
Proof.
  unfold re_sid_member, ropt. rewrite denotes_alt, denotes_eps, denotes_cat. split.
  - intros [(u & v & -> & Hu & Hv)| ->]; [right|auto].
    apply denotes_char in Hu as ->. apply re_ident_spec in Hv. exists v; auto.
  - intros [->|(m & -> & Hm)]; [auto|left]. exists [dollar], m. split; [reflexivity|].
    split; [apply denotes_char; reflexivity|apply re_ident_spec; assumption].
Qed.

Lemma sid_display_text i : sid_display i = id_text i.
Proof. unfold sid_display, id_text. rewrite <- app_assoc. reflexivity. Qed.

Lemma sid_tail_spec s :
  denotes (RCat (rchar hash_ch) (RCat re_ident re_sid_member)) s <->
  exists nm m, s = hash_ch :: nm ++ match m with Some x => dollar :: x | None => [] end
    /\ is_identifier nm /\ match m with Some x => is_identifier x | None => True end.
Proof.
  rewrite denotes_cat. split.
  - intros (u & v & -> & Hu & Hv). apply denotes_char in Hu as ->.
    apply denotes_cat in Hv as (nm & r & -> & Hn & Hr). apply re_ident_spec in Hn.
    apply re_sid_member_spec in Hr as [->|(m & -> & Hm)].
    + exists nm, None. auto.
    + exists nm, (Some m). auto.
  - intros (nm & m & -> & Hn & Hm). exists [hash_ch]. eexists. split; [reflexivity|].
    split; [apply denotes_char; reflexivity|].
    apply denotes_cat. eexists nm, _. split; [reflexivity|]. split; [apply re_ident_spec; assumption|].
    apply re_sid_member_spec. destruct m as [x|]; [right; eauto|left; reflexivity].
Qed.

Lemma sid_from_str_sound s i : sid_from_str s = Ok i -> valid_id i /\ s = id_text i.
Proof.
  unfold sid_from_str.
  destruct (split_match re_sid_ns _ s) as [[n [|h rest]]|] eqn:E1; try congruence.
  apply split_match_sound in E1 as (Es & Hn & Ht).
  apply re_sid_ns_spec in Hn. apply sid_tail_spec in Ht as (nm0 & m0 & Et & _).
  assert (h = hash_ch) by congruence; subst h; clear Et.
  destruct (split_match re_ident re_sid_member rest) as [[nm [|d m]]|] eqn:E2; intros H; inversion H; subst i; clear H;
    apply split_match_sound in E2 as (Er & Hnm & Hm); apply re_ident_spec in Hnm;
    apply re_sid_member_spec in Hm.
  - split; [repeat split; auto|]. unfold id_text; cbn. rewrite Es, Er. reflexivity.
  - destruct Hm as [|(x & Ex & Hx)]; [discriminate|]. inversion Ex; subst.
    split; [repeat split; auto|]. unfold id_text; cbn. reflexivity.
Qed.

Lemma id_text_inj i j : valid_id i -> valid_id j -> id_text i = id_text j -> i = j.
Proof.
  destruct i as [n s m], j as [n' s' m']; unfold valid_id, id_text; cbn.
  intros (Hn & Hs & Hm) (Hn' & Hs' & Hm') E.
  change "#"%char with hash_ch in E.
  apply app_sep_inj in E as [-> E].
  - destruct m as [m|], m' as [m'|]; cbn in E.
    + change "$"%char with dollar in E. apply app_sep_inj in E as [-> ->]; [reflexivity| |]; apply identifier_no; auto.
    + exfalso. rewrite app_nil_r in E. apply (identifier_no dollar s'); auto. rewrite <- E. apply in_elt.
    + exfalso. rewrite app_nil_r in E. apply (identifier_no dollar s); auto. rewrite E. apply in_elt.
    + rewrite !app_nil_r in E; subst; reflexivity.
  - apply namespace_no; auto.
  - apply namespace_no; auto.
Qed.

Lemma sid_from_str_complete i : valid_id i -> sid_from_str (id_text i) = Ok i.
Proof.
  intros Hv. assert (Hs : exists j, sid_from_str (id_text i) = Ok j).
  { destruct i as [n nm m]; destruct Hv as (Hn & Hs & Hm); cbn in *.
    unfold sid_from_str, id_text; cbn [sid_ns sid_name sid_member].
    set (tail := "#"%char :: nm ++ match m with Some x => "$"%char :: x | None => [] end).
    assert (Ht : denotes (RCat (rchar hash_ch) (RCat re_ident re_sid_member)) tail).
    { apply sid_tail_spec. exists nm, m. auto. }
    destruct (split_match_complete re_sid_ns _ n tail (proj2 (re_sid_ns_spec n) Hn) Ht) as (u & v & E).
    rewrite E. apply split_match_sound in E as (_ & _ & Hv). apply sid_tail_spec in Hv as (nm' & m' & -> & Hn' & Hm').
    assert (Hd : denotes re_sid_member match m' with Some x => dollar :: x | None => [] end).
    { apply re_sid_member_spec. destruct m'; eauto. }
    destruct (split_match_complete re_ident re_sid_member nm' _ (proj2 (re_ident_spec nm') Hn') Hd) as (u' & v' & E').
    rewrite E'. destruct v'; eauto. }
  destruct Hs as (j & Hj). rewrite Hj. f_equal. apply sid_from_str_sound in Hj as (Hj & E).
  symmetry; apply id_text_inj; auto.
Qed.

Lemma sid_is_valid_spec s : sid_is_valid s = true <-> exists i, sid_from_str s = Ok i.
Proof.
  unfold sid_is_valid. rewrite rmatch_denotes. unfold re_shape_id. rewrite denotes_cat. split.
  - intros (u & v & -> & Hu & Hv). apply re_sid_ns_spec in Hu. apply sid_tail_spec in Hv as (nm & m & -> & Hn & Hm).
    exists (SID u nm m). apply (sid_from_str_complete (SID u nm m)). repeat split; auto.
  - intros (i & H). apply sid_from_str_sound in H as ((Hn & Hs & Hm) & ->). unfold id_text.
    eexists _, _. split; [reflexivity|]. split; [apply re_sid_ns_spec; assumption|].
    apply sid_tail_spec. exists (sid_name i), (sid_member i). auto.
Qed.

Lemma sid_from_str_not_panic s : sid_from_str s <> Panic.
Proof.
  unfold sid_from_str. destruct (split_match _ _ s) as [[? [|? rest]]|]; try congruence.
  destruct (split_match _ _ rest) as [[? [|? ?]]|]; congruence.
Qed.

(** ** Equality *)
Lemma ident_eqb_spec a b : ident_eqb a b = true <-> lower a = lower b.
Proof. apply str_eqb_eq. Qed.
Lemma ns_eqb_spec a b : ns_eqb a b = true <-> lower a = lower b.
Proof. apply str_eqb_eq. Qed.
Lemma ident_eqb_refl a : ident_eqb a a = true. Proof. apply ident_eqb_spec; reflexivity. Qed.
Lemma ident_eqb_sym a b : ident_eqb a b = ident_eqb b a. Proof. apply str_eqb_sym. Qed.
Lemma ident_eqb_trans a b c : ident_eqb a b = true -> ident_eqb b c = true -> ident_eqb a c = true.
Proof. rewrite !ident_eqb_spec; congruence. Qed.

Lemma opt_ident_eqb_spec x y : option_eqb ident_eqb x y = true <-> option_map lower x = option_map lower y.
Proof.
  destruct x, y; cbn; try (split; congruence). rewrite ident_eqb_spec. split; congruence.
Qed.
Lemma sid_eqb_spec a b :
  sid_eqb a b = true <->
  lower (sid_ns a) = lower (sid_ns b) /\ lower (sid_name a) = lower (sid_name b)
  /\ option_map lower (sid_member a) = option_map lower (sid_member b).
Proof. unfold sid_eqb. rewrite !andb_true_iff, ns_eqb_spec, ident_eqb_spec, opt_ident_eqb_spec. tauto. Qed.
Lemma sid_eqb_refl a : sid_eqb a a = true.
Proof. apply sid_eqb_spec; auto. Qed.
Lemma sid_eqb_trans a b c : sid_eqb a b = true -> sid_eqb b c = true -> sid_eqb a c = true.
Proof. rewrite !sid_eqb_spec. intuition congruence. Qed.
Lemma sid_eqb_sym a b : sid_eqb a b = sid_eqb b a.
Proof.
  destruct (sid_eqb a b) eqn:E; destruct (sid_eqb b a) eqn:E'; try reflexivity.
  - apply sid_eqb_spec in E. assert (sid_eqb b a = true) by (apply sid_eqb_spec; intuition congruence). congruence.
  - apply sid_eqb_spec in E'. assert (sid_eqb a b = true) by (apply sid_eqb_spec; intuition congruence). congruence.
Qed.

Lemma lower_word c : cls_word c = true -> cls_word (lower_ch c) = true.
Proof.
  intros H. assert (G : implb (cls_word c) (cls_word (lower_ch c)) = true).
  { revert c H. intros c _. revert c. apply ascii_sweep. vm_compute. reflexivity. }
  rewrite H in G. exact G.
Qed.
Lemma lower_alpha c : is_alpha c = true -> is_alpha (lower_ch c) = true.
Proof.
  intros H. assert (G : implb (is_alpha c) (is_alpha (lower_ch c)) = true).
  { revert c H. intros c _. revert c. apply ascii_sweep. vm_compute. reflexivity. }
  rewrite H in G. exact G.
Qed.
Lemma lower_identifier s : is_identifier s -> is_identifier (lower s).
Proof.
  intros (us & c & rest & -> & Hu & Hc & Hr).
  exists (lower us), (lower_ch c), (lower rest). split; [rewrite lower_app; reflexivity|]. split.
  - apply Forall_map. revert Hu; apply Forall_impl; intros a ->; reflexivity.
  - split; [apply lower_alpha; assumption|]. apply Forall_map. revert Hr; apply Forall_impl; intros a Ha.
    apply cls_word_spec. apply lower_word. apply cls_word_spec. assumption.
Qed.
Lemma lower_join l : lower (join [dot] l) = join [dot] (map lower l).
Proof.
  induction l as [|x l IH]; [reflexivity|]. destruct l as [|y l]; [reflexivity|].
  change (join [dot] (x :: y :: l)) with (x ++ dot :: join [dot] (y :: l)).
  rewrite lower_app. cbn [map]. change (join [dot] (lower x :: lower y :: map lower l)) with (lower x ++ dot :: join [dot] (map lower (y :: l))).
  rewrite <- IH. reflexivity.
Qed.
Lemma lower_namespace s : is_namespace s -> is_namespace (lower s).
Proof.
  intros (ids & Hn & H & ->). exists (map lower ids). split; [destruct ids; cbn; congruence|]. split.
  - apply Forall_map. revert H; apply Forall_impl; apply lower_identifier.
  - apply lower_join.
Qed.

(** Keys of hash maps. *)
Section Keys.
  Context `{HH : Hasher}.
  Lemma sid_key_refl a : sid_key_eqb a a = true.
  Proof. unfold sid_key_eqb. rewrite Z.eqb_refl, sid_eqb_refl. reflexivity. Qed.
  Lemma sid_key_sym a b : sid_key_eqb a b = sid_key_eqb b a.
  Proof. unfold sid_key_eqb. rewrite Z.eqb_sym, sid_eqb_sym. reflexivity. Qed.
  Lemma sid_key_trans a b c : sid_key_eqb a b = true -> sid_key_eqb b c = true -> sid_key_eqb a c = true.
  Proof.
    unfold sid_key_eqb. rewrite !andb_true_iff, !Z.eqb_eq. intros [H1 H2] [H3 H4].
    split; [congruence|]. eapply sid_eqb_trans; eauto.
  Qed.
  Lemma sid_key_eq a b : sid_key_eqb a b = true -> sid_eqb a b = true.
  Proof. unfold sid_key_eqb. rewrite andb_true_iff. tauto. Qed.
  Lemma ident_key_refl a : ident_key_eqb a a = true.
  Proof. unfold ident_key_eqb. rewrite Z.eqb_refl, ident_eqb_refl. reflexivity. Qed.
  Lemma ident_key_sym a b : ident_key_eqb a b = ident_key_eqb b a.
  Proof. unfold ident_key_eqb. rewrite Z.eqb_sym, ident_eqb_sym. reflexivity. Qed.
  Lemma ident_key_trans a b c : ident_key_eqb a b = true -> ident_key_eqb b c = true -> ident_key_eqb a c = true.
  Proof.
    unfold ident_key_eqb. rewrite !andb_true_iff, !Z.eqb_eq. intros [H1 H2] [H3 H4].
    split; [congruence|]. eapply ident_eqb_trans; eauto.
  Qed.
End Keys.

(** ** Order *)
Lemma sid_cmp_eq a b : sid_cmp a b = Eq <-> a = b.
Proof.
  destruct a as [n s m], b as [n' s' m']; unfold sid_cmp; cbn.
  destruct (str_cmp n n') eqn:E1; [apply str_cmp_eq in E1; subst| |];
    [|split; [discriminate|intros H; inversion H; subst; rewrite str_cmp_refl in E1; discriminate]
     |split; [discriminate|intros H; inversion H; subst; rewrite str_cmp_refl in E1; discriminate]].
  destruct (str_cmp s s') eqn:E2; [apply str_cmp_eq in E2; subst| |];
    [|split; [discriminate|intros H; inversion H; subst; rewrite str_cmp_refl in E2; discriminate]
     |split; [discriminate|intros H; inversion H; subst; rewrite str_cmp_refl in E2; discriminate]].
  destruct m as [m|], m' as [m'|]; try (split; congruence).
  rewrite str_cmp_eq. split; congruence.
Qed.
Lemma sid_cmp_antisym a b : sid_cmp b a = CompOpp (sid_cmp a b).
Proof.
  destruct a as [n s m], b as [n' s' m']; unfold sid_cmp; cbn.
  rewrite (str_cmp_antisym n n'). destruct (str_cmp n n'); cbn; auto.
  rewrite (str_cmp_antisym s s'). destruct (str_cmp s s'); cbn; auto.
  destruct m, m'; cbn; auto using str_cmp_antisym.
Qed.
Lemma sid_cmp_lt_trans a b c : sid_cmp a b = Lt -> sid_cmp b c = Lt -> sid_cmp a c = Lt.
Proof.
  destruct a as [n s m], b as [n' s' m'], c as [n'' s'' m'']; unfold sid_cmp; cbn.
  destruct (str_cmp n n') eqn:E1; try congruence; destruct (str_cmp n' n'') eqn:E2; try congruence; intros H1 H2;
    try (apply str_cmp_eq in E1; subst); try (apply str_cmp_eq in E2; subst);
    rewrite ?E1, ?E2, ?str_cmp_refl, ?(str_cmp_lt_trans _ _ _ E1 E2); auto.
  destruct (str_cmp s s') eqn:E3; try congruence; destruct (str_cmp s' s'') eqn:E4; try congruence;
    try (apply str_cmp_eq in E3; subst); try (apply str_cmp_eq in E4; subst);
    rewrite ?E3, ?E4, ?str_cmp_refl, ?(str_cmp_lt_trans _ _ _ E3 E4); auto.
  destruct m, m', m''; try congruence. eapply str_cmp_lt_trans; eauto.
Qed.
