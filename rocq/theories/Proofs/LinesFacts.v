(** Facts about the line-oriented form: independence of iteration order, decoding of lines. *)
From Verif.Model Require Import Lines.
From Verif.Spec Require Import IdentitySpec ModelSpec LinesSpec.
From Verif.Proofs Require Import BaseFacts IdentityFacts HashMapFacts ValueFacts ModelFacts.
From Coq Require Import Sorting.Sorted.

(** ** Sorting *)
Definition ordered := StronglySorted (fun a b => str_leb a b = true).
Lemma insert_sorted_perm x l : Permutation (x :: l) (insert_sorted x l).
Proof.
  induction l as [|y l IH]; cbn; [reflexivity|]. destruct (str_leb x y); [reflexivity|].
  rewrite perm_swap. constructor. exact IH.
Qed.
Lemma insert_sorted_ordered x l : ordered l -> ordered (insert_sorted x l).
Proof.
  intros S. induction S as [|y l S IH F]; cbn; [repeat constructor|]. destruct (str_leb x y) eqn:E.
  - constructor; [constructor; assumption|]. constructor; [assumption|]. revert F. apply Forall_impl. intros z. apply str_leb_trans, E.
  - constructor; [exact IH|]. assert (E' : str_leb y x = true) by (destruct (str_leb_total x y); congruence).
    eapply Permutation_Forall; [apply insert_sorted_perm|]. constructor; assumption.
Qed.
Lemma sort_strings_perm l : Permutation l (sort_strings l).
Proof. induction l as [|x l IH]; cbn; [reflexivity|]. rewrite <- insert_sorted_perm. constructor; exact IH. Qed.
Lemma sort_strings_ordered l : ordered (sort_strings l).
Proof. induction l as [|x l IH]; cbn; [constructor|]. apply insert_sorted_ordered, IH. Qed.
Lemma ordered_unique a b : ordered a -> ordered b -> Permutation a b -> a = b.
Proof.
  revert b. induction a as [|x a IH]; intros b Sa Sb P.
  - apply Permutation_nil in P. auto.
  - destruct b as [|y b]; [apply Permutation_sym, Permutation_nil in P; discriminate|].
    inversion Sa as [|? ? Sa' Fa]; subst. inversion Sb as [|? ? Sb' Fb]; subst.
    assert (x = y).
    { assert (Ix : In x (y :: b)) by (eapply Permutation_in; [exact P|left; reflexivity]).
      assert (Iy : In y (x :: a)) by (eapply Permutation_in; [apply Permutation_sym, P|left; reflexivity]).
      destruct Ix as [->|Ix]; [reflexivity|]. destruct Iy as [->|Iy]; [reflexivity|].
      rewrite Forall_forall in Fa, Fb. apply str_leb_antisym; auto. }
    subst y. f_equal. apply IH; auto. eapply Permutation_cons_inv; eauto.
Qed.
Lemma sort_strings_eq a b : Permutation a b <-> sort_strings a = sort_strings b.
Proof.
  split.
  - intros P. apply ordered_unique; try apply sort_strings_ordered. rewrite <- !sort_strings_perm. exact P.
  - intros E. rewrite (sort_strings_perm a), E. symmetry. apply sort_strings_perm.
Qed.
Lemma In_sort x l : In x (sort_strings l) <-> In x l.
Proof. split; apply Permutation_in; [symmetry|]; apply sort_strings_perm. Qed.

Lemma flat_map_perm {A B} (f : A -> list B) a b : Permutation a b -> Permutation (flat_map f a) (flat_map f b).
Proof.
  induction 1; cbn; [reflexivity|apply Permutation_app_head; assumption| |etransitivity; eassumption].
  rewrite !app_assoc. apply Permutation_app_tail, Permutation_app_comm.
Qed.
Lemma flat_map_forall2 {A B} (R : A -> A -> Prop) (f : A -> list B) a b :
  Forall2 R a b -> (forall x y, In x a -> R x y -> Permutation (f x) (f y)) -> Permutation (flat_map f a) (flat_map f b).
Proof.
  induction 1 as [|x y a b Rxy F IH]; intros P; cbn; [reflexivity|].
  apply Permutation_app; [apply P; [left; reflexivity|assumption]|apply IH; intros; apply P; [right; assumption|assumption]].
Qed.
Lemma reordered_lines {K V} (R : V -> V -> Prop) (f : K * V -> list str) (a b : list (K * V)) :
  reordered R a b -> (forall k x y, In (k, x) a -> R x y -> Permutation (f (k, x)) (f (k, y))) ->
  Permutation (flat_map f a) (flat_map f b).
Proof.
  intros (a' & P & F) G. rewrite (flat_map_perm f _ _ P). apply (flat_map_forall2 _ f _ _ F).
  intros [k x] [k' y] I [E Rv]. cbn in E, Rv. subst k'. apply G; [|assumption]. eapply Permutation_in; [symmetry; exact P|exact I].
Qed.

Section Lines.
  Variables (f64_str : Z -> str) (debug_str : str -> str).
  Local Notation vlines := (value_lines f64_str).
  Local Notation slines := (shape_lines f64_str debug_str).

  Definition array_lines (prefix : str) : nat -> list value -> list str :=
    fix go (i : nat) (l : list value) : list str :=
      match l with [] => [] | x :: l' => vlines (prefix ++ lit "[" ++ index_str i ++ lit "]=") x ++ go (S i) l' end.
  Lemma vlines_array prefix x l : vlines prefix (VArray (x :: l)) = array_lines prefix 0 (x :: l).
  Proof. reflexivity. Qed.
  Definition object_lines (prefix : str) (l : list (str * value)) : list str :=
    flat_map (fun kv => vlines (prefix ++ lit "{" ++ fst kv ++ lit "}=") (snd kv)) l.
  Lemma vlines_object prefix x l : vlines prefix (VObject (x :: l)) = object_lines prefix (x :: l).
  Proof. reflexivity. Qed.

  Lemma value_lines_reorder v : forall w prefix, reorder_value v w -> Permutation (vlines prefix v) (vlines prefix w).
  Proof.
    induction v as [l IH|l IH| | | |] using value_ind'; intros w prefix R; inversion R as [? r F E1 E2|? l' r P F E1 E2|? E1 E2]; subst; try reflexivity.
    - destruct F as [|x y l r Rxy F]; [reflexivity|]. rewrite !vlines_array.
      assert (F' : Forall2 reorder_value (x :: l) (y :: r)) by (constructor; assumption). clear F Rxy R. revert F' IH.
      generalize 0, (x :: l), (y :: r). clear x y l r. intros i a b F. revert i.
      induction F as [|x y a b Rxy F IHF]; intros i IH; cbn [array_lines]; [reflexivity|].
      inversion IH as [|? ? Hx Ha]; subst. apply Permutation_app; [apply Hx, Rxy|apply IHF, Ha].
    - assert (L : length l = length r).
      { rewrite (Permutation_length P). clear - F. induction F; cbn; congruence. }
      destruct l as [|x l], r as [|y r]; try discriminate; [reflexivity|]. rewrite !vlines_object. unfold object_lines.
      rewrite (flat_map_perm _ _ _ P). apply (flat_map_forall2 _ _ _ _ F).
      intros [k a] [k' b] I [E Rv]. cbn in *. subst k'. assert (IH' := Permutation_Forall P IH).
      rewrite Forall_forall in IH'. apply (IH' _ I). exact Rv.
  Qed.

  Lemma traits_lines_reorder prefix a b : reorder_traits a b -> Permutation (traits_lines f64_str prefix a) (traits_lines f64_str prefix b).
  Proof.
    intros R. apply (reordered_lines _ _ _ _ R). intros k x y _ Rv. unfold trait_lines. cbn [fst snd].
    destruct x, y; cbn in Rv; try contradiction; [apply value_lines_reorder, Rv|reflexivity].
  Qed.
  Lemma member_lines_reorder prefix a b : reorder_member a b -> Permutation (member_lines f64_str prefix a) (member_lines f64_str prefix b).
  Proof.
    intros (E1 & E2 & T). unfold member_lines. rewrite E1, E2. constructor. apply traits_lines_reorder, T.
  Qed.
  Lemma body_lines_reorder prefix a b : reorder_body a b -> Permutation (body_lines f64_str debug_str prefix a) (body_lines f64_str debug_str prefix b).
  Proof.
    intros R. destruct R as [a b M|a b M|k v k' v' Mk Mv|a b M|a b M|a b M|a b M|b]; cbn [body_lines].
    - apply member_lines_reorder, M.
    - apply member_lines_reorder, M.
    - apply Permutation_app; apply member_lines_reorder; assumption.
    - apply (reordered_lines _ _ _ _ M). intros; apply member_lines_reorder; assumption.
    - apply (reordered_lines _ _ _ _ M). intros; apply member_lines_reorder; assumption.
    - destruct M as (-> & -> & -> & P). repeat apply Permutation_app_head. apply Permutation_map, P.
    - destruct M as (P & -> & -> & -> & -> & -> & -> & -> & -> & ->). apply Permutation_app_tail. apply Permutation_map, P.
    - reflexivity.
  Qed.
  Lemma reorder_kind_name a b : reorder_body a b -> kind_name a = kind_name b.
  Proof. destruct 1; reflexivity. Qed.
  Lemma shape_lines_reorder a b : reorder_shape a b -> Permutation (slines a) (slines b).
  Proof.
    intros (E & T & B). unfold shape_lines, line_prefix. rewrite (reorder_kind_name _ _ B), E. constructor.
    apply Permutation_app; [apply body_lines_reorder, B|apply traits_lines_reorder, T].
  Qed.
  Lemma shapes_flat (m : model) : flat_map slines (shapes m) = flat_map (fun e => slines (snd e)) (m_shapes m).
  Proof. unfold shapes, hm_values. induction (m_shapes m) as [|e l IH]; cbn; [reflexivity|]. rewrite IH. reflexivity. Qed.
  Lemma form_reorder a b : reorder_model a b -> make_line_oriented_form f64_str debug_str a = make_line_oriented_form f64_str debug_str b.
  Proof.
    intros (_ & M & S). unfold make_line_oriented_form. apply sort_strings_eq. rewrite !shapes_flat. apply Permutation_app.
    - apply (reordered_lines _ _ _ _ M). intros k x y _ R. unfold metadata_lines. cbn [fst snd]. apply value_lines_reorder, R.
    - apply (reordered_lines _ (fun e => slines (snd e)) _ _ S). intros k x y _ R. cbn [snd]. apply shape_lines_reorder, R.
  Qed.

  (** ** Decoding *)
  Definition wordy (s : str) : Prop := Forall (fun c => cls_word c = true) s.
  Lemma word_cut (P : ascii -> bool) a a' c c' b b' :
    Forall (fun x => P x = true) a -> Forall (fun x => P x = true) a' -> P c = false -> P c' = false ->
    a ++ c :: b = a' ++ c' :: b' -> a = a' /\ c = c' /\ b = b'.
  Proof.
    intros Fa. revert a'. induction Fa as [|x a Px Fa IH]; intros a' Fa' Nc Nc' E; destruct Fa' as [|y a' Py Fa']; cbn in E.
    - injection E as -> ->. auto.
    - injection E as -> _. congruence.
    - injection E as <- _. congruence.
    - injection E as <- E. destruct (IH a' Fa' Nc Nc' E) as (-> & -> & ->). auto.
  Qed.

  Lemma value_lines_prefix v : forall prefix l, In l (vlines prefix v) -> exists r, l = prefix ++ r.
  Proof.
    induction v as [vs IH|vs IH|n|b|s|] using value_ind'; intros prefix l I.
    - destruct vs as [|x vs]; [destruct I as [<-|[]]; eauto|]. rewrite vlines_array in I. revert I.
      generalize 0. revert IH. generalize (x :: vs). clear. intros vs IH. induction IH as [|x vs Hx _ IHv]; intros i I; cbn [array_lines] in I; [destruct I|].
      apply in_app_iff in I as [I|I]; [|eapply IHv, I]. apply Hx in I as [r ->]. rewrite <- app_assoc. eauto.
    - destruct vs as [|x vs]; [destruct I as [<-|[]]; eauto|]. rewrite vlines_object in I. unfold object_lines in I.
      apply in_flat_map in I as (kv & I & J). rewrite Forall_forall in IH. apply (IH _ I) in J as [r ->].
      rewrite <- app_assoc. eauto.
    - destruct I as [<-|[]]; eauto.
    - destruct I as [<-|[]]; eauto.
    - destruct I as [<-|[]]; eauto.
    - destruct I as [<-|[]]; eauto.
  Qed.
  Lemma traits_lines_prefix prefix ts l : In l (traits_lines f64_str prefix ts) -> exists r, l = prefix ++ r.
  Proof.
    intros I. apply in_flat_map in I as ([t [v|]] & _ & J); unfold trait_lines in J; cbn [snd fst] in J.
    - apply value_lines_prefix in J as [r ->]. rewrite <- app_assoc. eauto.
    - destruct J as [<-|[]]. eauto.
  Qed.

  (** Everything that can follow the prefix of a shape. *)
  Inductive line_rest (b : shape_kind) : str -> Prop :=
  | lr_empty : line_rest b []
  | lr_point n t : points_to b n t -> line_rest b (sep ++ n ++ tgt ++ sid_display t)
  | lr_sub n r : wordy n -> line_rest b (sep ++ n ++ sep ++ r)
  | lr_val n r : wordy n -> line_rest b (sep ++ n ++ val ++ r).

  Lemma wordy_lit s : forallb cls_word (lit s) = true -> wordy (lit s).
  Proof. intros E. apply Forall_forall. intros c I. rewrite forallb_forall in E. auto. Qed.
  Lemma trait_prefix_rest b prefix r l :
    l = trait_prefix prefix ++ r -> exists rest, l = prefix ++ rest /\ line_rest b rest.
  Proof.
    intros ->. unfold trait_prefix. rewrite <- app_assoc. eexists. split; [reflexivity|]. rewrite <- !app_assoc.
    apply lr_sub. apply wordy_lit. reflexivity.
  Qed.
  Lemma member_lines_rest b prefix m l :
    points_to b (ms_id m) (ms_target m) -> wordy (ms_id m) -> In l (member_lines f64_str prefix m) ->
    exists rest, l = prefix ++ rest /\ line_rest b rest.
  Proof.
    intros P W [<-|I].
    - rewrite <- !app_assoc. eexists. split; [reflexivity|]. rewrite !app_assoc, <- !app_assoc. apply lr_point, P.
    - apply traits_lines_prefix in I as [r ->]. unfold trait_prefix. rewrite <- !app_assoc. eexists. split; [reflexivity|].
      apply lr_sub, W.
  Qed.
  Lemma opt_line_rest b prefix n o l :
    (forall t, o = Some t -> points_to b n t) -> In l (opt_line prefix n o) -> exists rest, l = prefix ++ rest /\ line_rest b rest.
  Proof.
    intros P I. destruct o as [t|]; [|destruct I]. destruct I as [<-|[]]. eexists. split; [reflexivity|]. apply lr_point. auto.
  Qed.
  Lemma id_lines_rest b prefix n ids l :
    (forall t, In t ids -> points_to b n t) -> In l (id_lines prefix n ids) -> exists rest, l = prefix ++ rest /\ line_rest b rest.
  Proof.
    intros P I. apply in_map_iff in I as (t & <- & I). eexists. split; [reflexivity|]. apply lr_point. auto.
  Qed.

  Definition body_names_ok (b : shape_kind) : Prop := forall n t, points_to b n t -> is_identifier n /\ valid_id t.
  Lemma body_lines_rest prefix b l :
    body_names_ok b -> In l (body_lines f64_str debug_str prefix b) -> exists rest, l = prefix ++ rest /\ line_rest b rest.
  Proof.
    intros N I.
    assert (M : forall m, points_to b (ms_id m) (ms_target m) -> In l (member_lines f64_str prefix m) ->
                exists rest, l = prefix ++ rest /\ line_rest b rest).
    { intros m P. apply member_lines_rest; [exact P|]. apply identifier_word. apply (N _ _ P). }
    destruct b; cbn [body_lines] in I; try (exfalso; exact I);
      repeat match goal with h : In _ (_ ++ _) |- _ => apply in_app_iff in h as [h|h] end;
      try (eapply opt_line_rest; [|exact I]; intros; constructor; assumption);
      try (eapply id_lines_rest; [|exact I]; intros; constructor; assumption);
      try (eapply M; [|exact I]; constructor).
    - apply in_flat_map in I as ([k m] & I & J). eapply M; [|exact J]. eapply pt_structure; exact I.
    - apply in_flat_map in I as ([k m] & I & J). eapply M; [|exact J]. eapply pt_union; exact I.
    - destruct I as [<-|[]]. eexists. split; [reflexivity|]. rewrite <- ?app_assoc. apply lr_val. apply wordy_lit; reflexivity.
    - apply in_map_iff in I as (e & <- & _). eexists. split; [reflexivity|]. rewrite <- ?app_assoc. apply lr_sub. apply wordy_lit; reflexivity.
    - apply in_map_iff in I as (e & <- & _). eexists. split; [reflexivity|]. unfold member_target. rewrite <- ?app_assoc. apply lr_sub. apply wordy_lit; reflexivity.
  Qed.
  Lemma shape_lines_rest s l :
    body_names_ok (ts_body s) -> In l (slines s) -> exists rest, l = line_prefix s ++ rest /\ line_rest (ts_body s) rest.
  Proof.
    intros N [<-|I].
    - exists []. rewrite app_nil_r. split; [reflexivity|constructor].
    - apply in_app_iff in I as [I|I]; [apply body_lines_rest; assumption|].
      apply traits_lines_prefix in I as [r E]. eapply trait_prefix_rest, E.
  Qed.

  (** Characters of ids: everything before a ':' *)
  Definition no_colon (c : ascii) : bool := negb (Ascii.eqb c ":"%char).
  Lemma words_no_colon s : wordy s -> Forall (fun c => no_colon c = true) s.
  Proof.
    apply Forall_impl. intros c W. unfold no_colon. destruct (Ascii.eqb c ":") eqn:E; [|reflexivity].
    apply Ascii.eqb_eq in E. subst c. discriminate.
  Qed.
  Lemma ns_no_colon s : is_namespace s -> Forall (fun c => no_colon c = true) s.
  Proof.
    intros N. apply namespace_chars in N. revert N. apply Forall_impl. intros c W. unfold no_colon.
    destruct (Ascii.eqb c ":") eqn:E; [|reflexivity]. apply Ascii.eqb_eq in E. subst c. discriminate.
  Qed.
  Lemma id_no_colon i : valid_id i -> Forall (fun c => no_colon c = true) (sid_display i).
  Proof.
    intros (N & S & M). unfold sid_display. apply Forall_app; split; [apply Forall_app; split|apply Forall_app; split].
    - apply ns_no_colon, N.
    - repeat constructor.
    - apply words_no_colon, identifier_word, S.
    - destruct (sid_member i); [|constructor]. apply Forall_app; split; [repeat constructor|]. apply words_no_colon, identifier_word, M.
  Qed.
  Lemma kind_wordy b : wordy (kind_name b).
  Proof. destruct b as [s| | | | | | | | |]; try (apply wordy_lit; reflexivity). destruct s; apply wordy_lit; reflexivity. Qed.
  Lemma kind_not_meta b : kind_name b <> lit "meta".
  Proof. destruct b as [s| | | | | | | | |]; try discriminate. destruct s; discriminate. Qed.

  Lemma metadata_lines_prefix e l : In l (metadata_lines f64_str e) -> exists r, l = lit "meta" ++ sep ++ r.
  Proof. intros I. apply value_lines_prefix in I as [r ->]. rewrite <- !app_assoc. eauto. Qed.

  (** A line of the form [kind::text] comes from a shape of that kind (not from metadata), and the
      remaining text starts with the id. *)
  Lemma line_source m b text :
    names_valid m -> In (kind_name b ++ sep ++ text) (make_line_oriented_form f64_str debug_str m) ->
    exists k s rest, In (k, s) (m_shapes m) /\ kind_name (ts_body s) = kind_name b
                     /\ text = sid_display (ts_id s) ++ rest /\ line_rest (ts_body s) rest.
  Proof.
    intros NV I. apply (proj1 (In_sort _ _)) in I. apply in_app_iff in I as [I|I].
    - exfalso. apply in_flat_map in I as (e & _ & I). apply metadata_lines_prefix in I as [r E].
      apply (word_cut no_colon) in E as (E & _ & _); try reflexivity; [apply (kind_not_meta b E)| |].
      + apply words_no_colon, kind_wordy.
      + apply words_no_colon, wordy_lit. reflexivity.
    - rewrite shapes_flat in I. apply in_flat_map in I as ([k s] & Is & I). cbn [snd] in I.
      destruct (NV _ _ Is) as [Vi Np]. apply shape_lines_rest in I as (rest & E & R); [|exact Np].
      unfold line_prefix in E. rewrite <- !app_assoc in E.
      apply (word_cut no_colon) in E as (E & _ & E'); try reflexivity;
        [|apply words_no_colon, kind_wordy|apply words_no_colon, kind_wordy].
      exists k, s, rest. cbn [lit] in E'. injection E' as E'. auto.
  Qed.

  Lemma form_definition m b id :
    names_valid m -> valid_id id ->
    (In (kind_name b ++ sep ++ id_text id) (make_line_oriented_form f64_str debug_str m)
     <-> exists k s, In (k, s) (m_shapes m) /\ ts_id s = id /\ kind_name (ts_body s) = kind_name b).
  Proof.
    intros NV V. rewrite <- sid_display_text. split.
    - intros I. apply line_source in I as (k & s & rest & Is & K & E & R); [|exact NV].
      destruct (NV _ _ Is) as [Vi Np]. exists k, s. split; [exact Is|]. split; [|exact K].
      assert (X : rest = []).
      { destruct R as [|n t P|n r W|n r W]; [reflexivity| | |]; exfalso;
          assert (C : In ":"%char (sid_display id)) by (rewrite E; apply in_app_iff; right; left; reflexivity);
          apply id_no_colon in V; rewrite Forall_forall in V; apply V in C; discriminate. }
      subst rest. rewrite app_nil_r in E. rewrite !sid_display_text in E. symmetry. apply id_text_inj; assumption.
    - intros (k & s & Is & <- & K). apply In_sort, in_app_iff. right. rewrite shapes_flat. apply in_flat_map. exists (k, s).
      split; [exact Is|]. left. unfold line_prefix. cbn [snd]. rewrite K. reflexivity.
  Qed.

  Lemma In_member_lines prefix m : In (prefix ++ sep ++ ms_id m ++ tgt ++ sid_display (ms_target m)) (member_lines f64_str prefix m).
  Proof. left. rewrite <- !app_assoc. reflexivity. Qed.
  Lemma points_to_line prefix b n t :
    points_to b n t -> In (prefix ++ sep ++ n ++ tgt ++ sid_display t) (body_lines f64_str debug_str prefix b).
  Proof.
    intros P. destruct P as [m|m|k v|k v|ms k m I|ms k m I|o t E|o t E|o t I|s t I|s t I|r t E|r t E|r t E|r t E|r t E|r t E|r t I|r t I|r t I];
      cbn [body_lines]; rewrite ?in_app_iff; unfold opt_line, id_lines, member_target; try rewrite E; cbn [In];
      try (rewrite !in_map_iff); try tauto; try (apply In_member_lines);
      try (left; apply In_member_lines); try (right; apply In_member_lines);
      try (apply in_flat_map; eexists; split; [exact I|apply In_member_lines]);
      repeat first [ solve [eexists; split; [reflexivity|exact I]]
                   | solve [left; eexists; split; [reflexivity|exact I]]
                   | right ].
  Qed.

  Lemma form_reference m b id n t :
    names_valid m -> valid_id id -> is_identifier n -> valid_id t ->
    (In (kind_name b ++ sep ++ id_text id ++ sep ++ n ++ tgt ++ id_text t) (make_line_oriented_form f64_str debug_str m)
     <-> exists k s, In (k, s) (m_shapes m) /\ ts_id s = id /\ kind_name (ts_body s) = kind_name b /\ points_to (ts_body s) n t).
  Proof.
    intros NV V Vn Vt. rewrite <- !sid_display_text. split.
    - intros I. apply line_source in I as (k & s & rest & Is & K & E & R); [|exact NV].
      destruct (NV _ _ Is) as [Vi Np]. exists k, s. split; [exact Is|].
      assert (X : sid_display id = sid_display (ts_id s) /\ sep ++ n ++ tgt ++ sid_display t = rest).
      { assert (HR : rest = [] \/ exists r, rest = ":"%char :: r) by (destruct R; [left; reflexivity|right..]; eexists; reflexivity).
        destruct HR as [->|[r ->]].
        - exfalso. rewrite app_nil_r in E. assert (C : In ":"%char (sid_display (ts_id s))) by (rewrite <- E; apply in_app_iff; right; left; reflexivity).
          apply id_no_colon in Vi. rewrite Forall_forall in Vi. apply Vi in C. discriminate.
        - apply (word_cut no_colon) in E as (E1 & _ & E2); try reflexivity; try (apply id_no_colon; assumption).
          split; [exact E1|]. cbn. f_equal. exact E2. }
      destruct X as [X1 X2]. split; [|split; [exact K|]].
      + rewrite !sid_display_text in X1. symmetry. apply id_text_inj; assumption.
      + assert (Wn := identifier_word _ Vn). destruct R as [|n' t' P|n' r W|n' r W].
        * discriminate.
        * destruct (Np _ _ P) as [Vn' Vt']. injection X2 as X2. apply (word_cut cls_word) in X2 as (-> & _ & X2); try reflexivity.
          -- injection X2 as X2. rewrite !sid_display_text in X2. apply id_text_inj in X2; [subst; exact P|assumption|assumption].
          -- exact Wn.
          -- apply identifier_word, Vn'.
        * exfalso. injection X2 as X2. apply (word_cut cls_word) in X2 as (_ & X2 & _); try reflexivity; [discriminate|exact Wn|exact W].
        * exfalso. injection X2 as X2. apply (word_cut cls_word) in X2 as (_ & X2 & _); try reflexivity; [discriminate|exact Wn|exact W].
    - intros (k & s & Is & <- & K & P). apply In_sort, in_app_iff. right. rewrite shapes_flat. apply in_flat_map. exists (k, s).
      split; [exact Is|]. right. apply in_app_iff. left. unfold line_prefix. cbn [snd]. rewrite K.
      apply (points_to_line (kind_name b ++ sep ++ sid_display (ts_id s))) in P.
      rewrite <- !app_assoc in P. rewrite <- ?app_assoc. exact P.
  Qed.
End Lines.

(** ** A computable check of [names_valid], used for examples *)
Definition opt_ref (n : str) (o : option shape_id) : list (str * shape_id) := match o with Some t => [(n, t)] | None => [] end.
Definition refs (b : shape_kind) : list (str * shape_id) :=
  let mref m := (ms_id m, ms_target m) in
  match b with
  | KSimple _ | KUnresolved => []
  | KList m | KSet m => [mref m]
  | KMap k v => [mref k; mref v]
  | KStructure ms | KUnion ms => map (fun e => mref (snd e)) ms
  | KService s => map (pair (lit "operation")) (sv_operations s) ++ map (pair (lit "resource")) (sv_resources s)
  | KOperation o => opt_ref (lit "input") (op_input o) ++ opt_ref (lit "output") (op_output o) ++ map (pair (lit "error")) (op_errors o)
  | KResource r =>
      opt_ref (lit "create") (rs_create r) ++ opt_ref (lit "put") (rs_put r) ++ opt_ref (lit "read") (rs_read r)
      ++ opt_ref (lit "update") (rs_update r) ++ opt_ref (lit "delete") (rs_delete r) ++ opt_ref (lit "list") (rs_list r)
      ++ map (pair (lit "operation")) (rs_operations r) ++ map (pair (lit "collection_operation")) (rs_collection_operations r)
      ++ map (pair (lit "resource")) (rs_resources r)
  end.
Lemma points_to_refs b n t : points_to b n t -> In (n, t) (refs b).
Proof.
  intros P. destruct P as [m|m|k v|k v|ms k m I|ms k m I|o t E|o t E|o t I|s t I|s t I|r t E|r t E|r t E|r t E|r t E|r t E|r t I|r t I|r t I];
    cbn [refs]; rewrite ?in_app_iff; unfold opt_ref; try rewrite E; cbn [In]; try tauto;
    try (apply in_map_iff; exists (k, m); split; [reflexivity|exact I]);
    repeat first [ solve [apply (in_map (pair _)); exact I] | solve [left; apply (in_map (pair _)); exact I] | right ].
Qed.
Definition valid_idb (i : shape_id) : bool :=
  ns_is_valid (sid_ns i) && ident_is_valid (sid_name i) && match sid_member i with Some m => ident_is_valid m | None => true end.
Lemma valid_idb_spec i : valid_idb i = true <-> valid_id i.
Proof.
  unfold valid_idb, valid_id. rewrite !andb_true_iff, ns_is_valid_spec, ident_is_valid_spec.
  destruct (sid_member i); rewrite ?ident_is_valid_spec; intuition.
Qed.
Definition names_validb (m : model) : bool :=
  forallb (fun e => valid_idb (ts_id (snd e)) && forallb (fun r => ident_is_valid (fst r) && valid_idb (snd r)) (refs (ts_body (snd e)))) (m_shapes m).
Lemma names_validb_sound m : names_validb m = true -> names_valid m.
Proof.
  intros C k s I. unfold names_validb in C. rewrite forallb_forall in C. apply C in I. cbn [snd] in I.
  apply andb_true_iff in I as [V R]. split; [apply valid_idb_spec, V|]. intros n t P. apply points_to_refs in P.
  rewrite forallb_forall in R. apply R in P. apply andb_true_iff in P as [A B]. split; [apply ident_is_valid_spec, A|apply valid_idb_spec, B].
Qed.
