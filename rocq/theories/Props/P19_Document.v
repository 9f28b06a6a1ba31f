(** C50: the document describing a model. *)
From Verif.Model Require Import Document.
From Verif.Spec Require Import IdentitySpec ModelSpec ReorderSpec ActionsSpec DocumentSpec Witness.
From Verif.Spec Require GraphMLSpec.
From Verif.Proofs Require Import BaseFacts IdentityFacts HashMapFacts ValueFacts ModelFacts ReorderFacts LinesFacts DocumentFacts DocumentOrder.

(** ** What goes in and what comes out *)
(** Exactly the models whose documentation traits are texts can be described; the rest panic. *)
Theorem C50_outcome :
  forall (H : Hasher) f64_str safe_label (order : list str) (m : model),
    maps_ok m -> Permutation order (namespaces m) ->
    (documentable m -> exists d, describe_model f64_str safe_label order m = Ok d)
    /\ (~ documentable m -> describe_model f64_str safe_label order m = Panic).
Proof.
  intros H f64_str safe_label order m M P. pose proof (document_says f64_str safe_label m order M P) as D.
  rewrite (documentable_spec m order M P). destruct (forallb _ order).
  - split; [|intros N; exfalso; apply N; reflexivity]. intros _. destruct D as (d & c & E & _). eauto.
  - split; [discriminate|]. intros _. exact D.
Qed.
Print Assumptions C50_outcome.

(** The version, the metadata, then a chapter for each namespace with a section for each of its shapes: its kind,
    its documentation, its traits, everything it refers to. *)
Theorem C50_outline :
  forall (H : Hasher) f64_str safe_label (order : list str) (m : model) (d : document),
    maps_ok m -> Permutation order (namespaces m) -> describe_model f64_str safe_label order m = Ok d ->
    d_title d = lit "Smithy Model"
    /\ exists chapters,
         by_heading Section1 (d_blocks d)
         = ([Paragraph [Plain (lit "Smithy Version: " ++ version_display (m_version m))]],
            metadata_chapter f64_str m ++ chapters)
         /\ Forall2 (chapter_about f64_str safe_label m) order chapters.
Proof.
  intros H f64_str safe_label order m d M P E. pose proof (document_says f64_str safe_label m order M P) as D.
  destruct (forallb _ order); [|congruence]. destruct D as (d' & c & E' & T & B & F). rewrite E in E'. injection E' as <-.
  split; [exact T|]. exists c. split; assumption.
Qed.
Print Assumptions C50_outline.

(** Unless two namespaces differ only in letter case, each resolved shape has exactly one section, and nothing
    else has. *)
Theorem C50_each_once :
  forall (H : Hasher) f64_str safe_label (order : list str) (m : model) (d : document),
    maps_ok m -> one_spelling m -> Permutation order (namespaces m) ->
    describe_model f64_str safe_label order m = Ok d ->
    Permutation (map fst (flat_map sections (snd (by_heading Section1 (d_blocks d)))))
      (map (fun s => (sid_name (ts_id s) ++ lit " (" ++ GraphMLSpec.type_name (ts_body s) ++ lit ")",
                      Some (shape_label safe_label (ts_id s))))
         (filter resolved (map snd (m_shapes m)))).
Proof.
  intros H f64_str safe_label order m d M O P E.
  destruct (C50_outline H f64_str safe_label order m d M P E) as (_ & chapters & B & F). rewrite B. cbn [snd].
  rewrite flat_map_app, map_app.
  assert (X : flat_map sections (metadata_chapter f64_str m) = []) by (unfold metadata_chapter; destruct (m_metadata m); reflexivity).
  rewrite X. cbn [app map].
  rewrite <- (groups_cover safe_label m order O P). clear X B P E. induction F as [|ns c order chapters (_ & _ & ss & es & P & _ & B & A) F IH]; [reflexivity|].
  cbn [flat_map]. rewrite !map_app. apply Permutation_app; [|exact IH].
  unfold sections. rewrite B. cbn [snd]. unfold group. rewrite <- P. clear P B. clear - A.
  induction A as [|s e ss es (T & L & _) A IH]; [reflexivity|]. cbn [map]. destruct e as [[t l] b]. cbn in T, L. subst. constructor. exact IH.
Qed.
Print Assumptions C50_each_once.

(** A link leads to a section of the same chapter whenever its target is a resolved shape of the model. *)
Theorem C50_links :
  forall (H : Hasher) f64_str safe_label (order : list str) (m : model) (d : document) c e label caption,
    maps_ok m -> Permutation order (namespaces m) -> describe_model f64_str safe_label order m = Ok d ->
    In c (snd (by_heading Section1 (d_blocks d))) -> In e (sections c) ->
    In (Internal label caption) (mentions (body_blocks e)) ->
    exists target, label = shape_label safe_label target /\ caption = sid_name target
      /\ forall s, model_shape m target = Some s -> ts_id s = target -> ts_body s <> KUnresolved ->
           exists e', In e' (sections c) /\ section_about f64_str safe_label s e'.
Proof.
  intros H f64_str safe_label order m d c e label caption M P E Ic Ie Im.
  destruct (C50_outline H f64_str safe_label order m d M P E) as (_ & chapters & B & F). rewrite B in Ic. cbn [snd] in Ic.
  apply in_app_or in Ic as [Ic|Ic].
  { exfalso. unfold metadata_chapter in Ic. destruct (m_metadata m); [destruct Ic|]. destruct Ic as [<-|[]]. destruct Ie. }
  apply In_nth_error in Ic as (n & Ic).
  assert (Hc : exists ns, chapter_about f64_str safe_label m ns c).
  { clear - F Ic. revert n Ic. induction F as [|ns c0 order chapters A F IH]; intros n Ic; [destruct n; discriminate|].
    destruct n as [|n]; [injection Ic as ->; eauto|eauto]. }
  destruct Hc as (ns & _ & _ & ss & es & Ps & _ & Bs & Fs). unfold sections in *. rewrite Bs in *. cbn [snd] in *.
  assert (Hs : exists s, In s ss /\ section_about f64_str safe_label s e).
  { clear - Fs Ie. induction Fs as [|s e0 ss es A F IH]; [destruct Ie|]. destruct Ie as [->|Ie]; [exists s; split; [left; reflexivity|exact A]|].
    destruct (IH Ie) as (s' & I & A'). exists s'. split; [right; exact I|exact A']. }
  destruct Hs as (s & Is & (_ & _ & _ & _ & _ & Em & _)). rewrite Em in Im.
  assert (T : exists target, Internal label caption = refer safe_label (ts_id s) target).
  { clear - Im. revert Im. unfold expected_mentions.
    assert (R : forall l, In (Internal label caption) (map (refer safe_label (ts_id s)) l) -> exists t, Internal label caption = refer safe_label (ts_id s) t).
    { intros l I. apply in_map_iff in I as (t & E & _). eauto. }
    assert (N : forall n t, In (Internal label caption) (named_refer safe_label (ts_id s) n t) -> exists t, Internal label caption = refer safe_label (ts_id s) t).
    { intros n t [I|[I|[]]]; [discriminate|eauto]. }
    assert (Ms : forall ms : members, In (Internal label caption) (flat_map (fun e => named_refer safe_label (ts_id s) (ms_id (snd e)) (ms_target (snd e))) ms)
                 -> exists t, Internal label caption = refer safe_label (ts_id s) t).
    { intros ms I. apply in_flat_map in I as (x & _ & I). eauto. }
    assert (Lc : forall n o, In (Internal label caption) match o with Some t => named_refer safe_label (ts_id s) n t | None => [] end
                 -> exists t, Internal label caption = refer safe_label (ts_id s) t).
    { intros n [t|] I; [eauto|destruct I]. }
    destruct (ts_body s) as [z|mb|mb|k v|ms|ms|sv|o|r|]; intros I; try (destruct I; fail); eauto.
    - destruct I as [I|[]]; eauto.
    - destruct I as [I|[]]; eauto.
    - destruct I as [I|[I|[]]]; eauto.
    - rewrite !in_app_iff in I. destruct I as [I|[I|I]]; eauto. apply in_flat_map in I as (x & _ & [I|[I|[]]]); discriminate.
    - rewrite !in_app_iff in I. destruct I as [I|[I|[I|[I|[I|[I|I]]]]]]; eauto. }
  destruct T as (target & T). exists target. unfold refer in T. destruct (ns_eqb (sid_ns (ts_id s)) (sid_ns target)) eqn:Ens; [|discriminate].
  injection T as -> ->. split; [reflexivity|]. split; [reflexivity|]. intros s' S' Es U.
  assert (Is' : In s' ss).
  { apply (Permutation_in _ (Permutation_sym Ps)). fold (group m ns). apply group_In. unfold model_shape in S'. apply hm_get_Some_In in S' as (k & Ik & _).
    split; [eauto|]. split; [exact U|]. apply (Permutation_in _ Ps) in Is. fold (group m ns) in Is. apply group_In in Is as (_ & _ & Q).
    rewrite Es. apply ns_eqb_spec. apply ns_eqb_spec in Q. apply ns_eqb_spec in Ens. congruence. }
  clear - Fs Is'. induction Fs as [|s0 e0 ss es A F IH]; [destruct Is'|]. destruct Is' as [->|I]; [exists e0; split; [left; reflexivity|exact A]|].
  destruct (IH I) as (e' & I' & A'). exists e'. split; [right; exact I'|exact A'].
Qed.
Print Assumptions C50_links.

(** Iterating the maps of the model in other orders changes only the order of chapters, and of members and links
    within a section. *)
Theorem C50_order :
  forall (H : Hasher) f64_str safe_label (order1 order2 : list str) (m1 m2 : model) (d1 d2 : document),
    maps_ok m1 -> maps_ok m2 -> one_spelling m1 -> reorder_model m1 m2 ->
    Forall (fun e => valid_id (ts_id (snd e))) (m_shapes m1) ->
    Permutation order1 (namespaces m1) -> Permutation order2 (namespaces m2) ->
    describe_model f64_str safe_label order1 m1 = Ok d1 -> describe_model f64_str safe_label order2 m2 = Ok d2 ->
    d_title d1 = d_title d2
    /\ fst (by_heading Section1 (d_blocks d1)) = fst (by_heading Section1 (d_blocks d2))
    /\ exists chapters,
         Permutation (snd (by_heading Section1 (d_blocks d1))) chapters
         /\ Forall2 same_chapter chapters (snd (by_heading Section1 (d_blocks d2))).
Proof.
  intros H f64_str safe_label order1 order2 m1 m2 d1 d2 M1 M2 O R V P1 P2 E1 E2.
  destruct (C50_outline H f64_str safe_label order1 m1 d1 M1 P1 E1) as (T1 & c1 & B1 & F1).
  destruct (C50_outline H f64_str safe_label order2 m2 d2 M2 P2 E2) as (T2 & c2 & B2 & F2).
  split; [congruence|]. rewrite B1, B2. cbn [fst snd]. split; [rewrite (proj1 R); reflexivity|].
  assert (Po : Permutation order1 order2) by (rewrite P1, P2; apply namespaces_reorder; assumption).
  assert (X : exists c1', Permutation c1 c1' /\ Forall2 (chapter_about f64_str safe_label m1) order2 c1').
  { assert (Fl : Forall2 (fun c ns => chapter_about f64_str safe_label m1 ns c) c1 order1) by (clear - F1; induction F1; constructor; auto).
    destruct (Forall2_perm_r _ _ _ _ Fl Po) as (c1' & Pc & Fc). exists c1'. split; [exact Pc|]. clear - Fc. induction Fc; constructor; auto. }
  destruct X as (c1' & Pc & Fc). exists (metadata_chapter f64_str m1 ++ c1'). split; [apply Permutation_app_head, Pc|].
  apply Forall2_app.
  - destruct R as (_ & R & _). unfold metadata_chapter. destruct (m_metadata m1) as [|e l].
    + apply reordered_nil in R. rewrite R. constructor.
    + assert (N : m_metadata m2 <> []) by (apply (reordered_not_nil _ _ _ R); discriminate).
      destruct (m_metadata m2) as [|e' l']; [contradiction|]. repeat constructor.
  - assert (V2 : ids_valid m2).
    { apply Forall_forall. intros [k s] I. destruct (reorder_stored_back _ _ _ _ R I) as (s1 & I1 & (Es & _)). cbn [snd].
      rewrite Forall_forall in V. rewrite <- Es. exact (V _ I1). }
    clear - M1 M2 R V V2 F2 Fc. revert c1' Fc. induction F2 as [|ns c order c2 A F2 IH]; intros c1' Fc; inversion Fc; subst; constructor; auto.
    eapply (chapters_reorder f64_str safe_label m1 m2); eassumption.
Qed.
Print Assumptions C50_order.

(** ** Examples *)
Definition plain_label (text prefix : str) : str := prefix ++ lit "-" ++ text.
Definition no_f64 (_ : Z) : str := lit "?".
Definition described (order : list str) (m : model) : document :=
  match @describe_model byte_hasher no_f64 plain_label order m with Ok d => d | _ => Document [] [] end.
Ltac solve_maps_ok d :=
  split; [solve_model_ok d|];
  let I := fresh "I" in let J := fresh "J" in
  intros k s mb I J; unfold d in I; cbn [m_shapes map] in I; solve_in; autounfold with witness in J; cbn [ts_body members_of map snd] in J;
  solve_in; subst; cbn [ms_traits]; solve_ok.
Example C50_ex_maps : @maps_ok byte_hasher motd.
Proof. solve_maps_ok motd. Qed.
Example C50_ex_spelling : one_spelling motd.
Proof.
  intros k s k' s' I I' U U' _. unfold motd in I, I'. cbn [m_shapes map] in I, I'.
  assert (X : forall k s, In (k, s) (map (fun s => (ts_id s, s)) [motd_date; motd_input; motd_output; motd_error; motd_op; motd_resource; motd_service; motd_unresolved]) ->
    ts_body s <> KUnresolved -> sid_ns (ts_id s) = ex_ns).
  { clear. intros k s I U. cbn [map] in I. solve_in; try reflexivity. exfalso. apply U. reflexivity. }
  rewrite (X k s I U), (X k' s' I' U'). reflexivity.
Qed.
Example C50_ex :
  Permutation [ex_ns] (@namespaces byte_hasher motd)
  /\ @describe_model byte_hasher no_f64 plain_label [ex_ns] motd = Ok (described [ex_ns] motd)
  /\ map (fun e => fst e) (flat_map sections (snd (by_heading Section1 (d_blocks (described [ex_ns] motd)))))
     = map (fun e => (lit (fst e), Some (lit (snd e))))
         [("BadDateValue (structure)", "shape-BadDateValue"); ("Date (string)", "shape-Date");
          ("GetMessage (operation)", "shape-GetMessage"); ("GetMessageInput (structure)", "shape-GetMessageInput");
          ("GetMessageOutput (structure)", "shape-GetMessageOutput"); ("Message (resource)", "shape-Message");
          ("MessageOfTheDay (service)", "shape-MessageOfTheDay")]%string.
Proof. split; [vm_compute; reflexivity|]. split; vm_compute; reflexivity. Qed.
Example C50_ex_panic :
  @describe_model byte_hasher no_f64 plain_label [ex_ns]
    (Model V10 [] [(ex_id "A", Shape (ex_id "A") [(documentation_trait, Some (VBoolean true))] (KSimple SString))]) = Panic.
Proof. vm_compute. reflexivity. Qed.
(** The maps of [motd] in another order: another document, with the same sections. *)
Definition motd_other : model := Model V10 (rev (m_metadata motd)) (rev (m_shapes motd)).
Example C50_ex_other : reorder_model motd motd_other /\ @maps_ok byte_hasher motd_other
  /\ Forall (fun e => valid_id (ts_id (snd e))) (m_shapes motd)
  /\ described [ex_ns] motd <> described [ex_ns] motd_other.
Proof.
  assert (R : reorder_model motd motd_other).
  { split; [reflexivity|]. split.
    - exists (rev (m_metadata motd)). split; [apply Permutation_rev|]. unfold motd_other. cbn [m_metadata].
      generalize (rev (m_metadata motd)). intros l. induction l; constructor; auto using rv_same.
    - exists (rev (m_shapes motd)). split; [apply Permutation_rev|]. unfold motd_other. cbn [m_shapes].
      generalize (rev (m_shapes motd)). intros l. induction l as [|e l IH]; constructor; auto.
      split; [reflexivity|]. split; [reflexivity|]. split; [apply reorder_traits_refl|apply rb_same]. }
  split; [exact R|]. split; [|split].
  - destruct C50_ex_maps as [[(K & D1 & D2) [S Mt]] Mb].
    split; [split; [split; [|split]|split]|].
    + intros k s I. apply K. apply in_rev. exact I.
    + exact (distinct_perm _ sid_key_equiv _ _ (Permutation_rev _) D1).
    + exact (distinct_perm _ str_eqb_equiv _ _ (Permutation_rev _) D2).
    + exact (Permutation_Forall (Permutation_rev _) S).
    + exact (Permutation_Forall (Permutation_rev _) Mt).
    + intros k s mb I. apply (Mb k s mb), in_rev. exact I.
  - apply Forall_forall. intros e I. apply valid_idb_spec. revert e I. apply Forall_forall. repeat constructor.
  - intros E. vm_compute in E. discriminate.
Qed.

(** ** What the document does not do *)
Definition one_shape (ts : traits) (b : shape_kind) : model := Model V10 [] [(ex_id "A", Shape (ex_id "A") ts b)].
Lemma one_shape_ok ts b : @traits_ok byte_hasher ts -> members_of b = [] -> @body_ok byte_hasher b -> @maps_ok byte_hasher (one_shape ts b).
Proof.
  intros T Mb B. split; [split; [split; [|split]|split]|].
  - intros k s [E|[]]. injection E as <- <-. split; [reflexivity|]. intros C. exfalso. apply C. reflexivity.
  - split; [intros k v []|exact I].
  - exact I.
  - constructor; [split; assumption|constructor].
  - constructor.
  - intros k s mb [E|[]] J. injection E as <- <-. cbn [ts_body] in J. rewrite Mb in J. destruct J.
Qed.

(** "Different trait values are documented differently": only the last step of a path is written. *)
Definition C50_paths : Prop :=
  forall (H : Hasher) f64_str safe_label order (id t : shape_id) (v w : value),
    value_ok v -> value_ok w ->
    describe_model f64_str safe_label order (Model V10 [] [(id, Shape id [(t, Some v)] (KSimple SString))])
    = describe_model f64_str safe_label order (Model V10 [] [(id, Shape id [(t, Some w)] (KSimple SString))]) -> v = w.
Theorem C50_paths_refuted : ~ C50_paths.
Proof.
  intros C.
  assert (O : forall k, value_ok (VObject [(k, VObject [(lit "c", VBoolean true)])])) by (intros k; repeat (constructor; cbn); intros ? ? []).
  specialize (C byte_hasher no_f64 plain_label [ex_ns] (ex_id "A") (ex_id "t") _ _ (O (lit "a")) (O (lit "b")) eq_refl). discriminate.
Qed.
Print Assumptions C50_paths_refuted.

(** "The identifiers of a resource are documented". *)
Definition C50_identifiers : Prop :=
  forall (H : Hasher) f64_str safe_label order (id : shape_id) (r r' : resource),
    describe_model f64_str safe_label order (Model V10 [] [(id, Shape id [] (KResource r))])
    = describe_model f64_str safe_label order (Model V10 [] [(id, Shape id [] (KResource r'))]) -> rs_identifiers r = rs_identifiers r'.
Theorem C50_identifiers_refuted : ~ C50_identifiers.
Proof.
  intros C.
  specialize (C byte_hasher no_f64 plain_label [ex_ns] (ex_id "A")
    (Resource [] None None None None None None [] [] [])
    (Resource [(lit "date", ex_id "Date")] None None None None None None [] [] []) eq_refl). discriminate.
Qed.
Print Assumptions C50_identifiers_refuted.

(** "A label belongs to one section": a name in two namespaces gives the same label. *)
Definition C50_labels : Prop :=
  forall (H : Hasher) f64_str safe_label order (m : model) (d : document),
    maps_ok m -> Permutation order (namespaces m) -> describe_model f64_str safe_label order m = Ok d ->
    NoDup (map label_of (flat_map sections (snd (by_heading Section1 (d_blocks d))))).
Definition twice : model :=
  Model V10 [] (map (fun s => (ts_id s, s)) [Shape (SID "alpha" "A" None) [] (KSimple SString); Shape (SID "beta" "A" None) [] (KSimple SString)]).
Theorem C50_labels_refuted : ~ C50_labels.
Proof.
  intros C.
  assert (M : @maps_ok byte_hasher twice) by (solve_maps_ok twice).
  specialize (C byte_hasher no_f64 plain_label (@namespaces byte_hasher twice) twice (described (@namespaces byte_hasher twice) twice) M (Permutation_refl _) eq_refl).
  vm_compute in C. inversion C as [|? ? N _]. apply N. left. reflexivity.
Qed.
Print Assumptions C50_labels_refuted.

(** "A shape has one section": with two spellings of a namespace its shapes are described twice. *)
Definition C50_once : Prop :=
  forall (H : Hasher) f64_str safe_label order (m : model) (d : document),
    maps_ok m -> Permutation order (namespaces m) -> describe_model f64_str safe_label order m = Ok d ->
    length (flat_map sections (snd (by_heading Section1 (d_blocks d)))) = length (filter resolved (map snd (m_shapes m))).
Definition spelt : model :=
  Model V10 [] (map (fun s => (ts_id s, s)) [Shape (SID "alpha" "A" None) [] (KSimple SString); Shape (SID "Alpha" "B" None) [] (KSimple SString)]).
Theorem C50_once_refuted : ~ C50_once.
Proof.
  intros C.
  assert (M : @maps_ok byte_hasher spelt) by (solve_maps_ok spelt).
  specialize (C byte_hasher no_f64 plain_label (@namespaces byte_hasher spelt) spelt (described (@namespaces byte_hasher spelt) spelt) M (Permutation_refl _) eq_refl).
  vm_compute in C. discriminate.
Qed.
Print Assumptions C50_once_refuted.

(** "Every link leads somewhere": a link to an unresolved shape of the namespace does not. *)
Definition C50_no_dangling : Prop :=
  forall (H : Hasher) f64_str safe_label order (m : model) (d : document) c e label caption,
    maps_ok m -> Permutation order (namespaces m) -> describe_model f64_str safe_label order m = Ok d ->
    In c (snd (by_heading Section1 (d_blocks d))) -> In e (sections c) ->
    In (Internal label caption) (mentions (body_blocks e)) -> exists e', In e' (sections c) /\ label_of e' = Some label.
Definition dangling : model := one_shape [] (KList (MS (lit "member") [] (ex_id "Missing"))).
Theorem C50_no_dangling_refuted : ~ C50_no_dangling.
Proof.
  intros C.
  assert (M : @maps_ok byte_hasher dangling).
  { split; [unfold dangling, one_shape; solve_model_ok dangling|]. intros k s mb [E|[]] J. injection E as <- <-. destruct J as [<-|[]]. split; constructor. }
  destruct (C byte_hasher no_f64 plain_label (@namespaces byte_hasher dangling) dangling (described (@namespaces byte_hasher dangling) dangling)
    (hd ([], None, []) (snd (by_heading Section1 (d_blocks (described (@namespaces byte_hasher dangling) dangling)))))
    (hd ([], None, []) (sections (hd ([], None, []) (snd (by_heading Section1 (d_blocks (described (@namespaces byte_hasher dangling) dangling)))))))
    (lit "shape-Missing") (lit "Missing") M (Permutation_refl _) eq_refl) as (e' & I & L).
  - left. reflexivity.
  - left. reflexivity.
  - left. reflexivity.
  - vm_compute in I. destruct I as [<-|[]]. vm_compute in L. discriminate.
Qed.
Print Assumptions C50_no_dangling_refuted.

(** "A link of externalDocumentation leads to its URL": the address is written with quotes. *)
Definition C50_urls : Prop :=
  forall (H : Hasher) f64_str safe_label order (m : model) (d : document) k s (name url : str),
    maps_ok m -> Permutation order (namespaces m) -> describe_model f64_str safe_label order m = Ok d ->
    In (k, s) (m_shapes m) -> ts_body s <> KUnresolved ->
    In (external_documentation_trait, Some (VObject [(name, VString url)])) (ts_traits s) ->
    exists c e links, In c (snd (by_heading Section1 (d_blocks d))) /\ In e (sections c)
      /\ In links (see_also (body_blocks e)) /\ In (url, name) links.
Definition linked : model := one_shape [(external_documentation_trait, Some (VObject [(lit "Home", VString "https://example.org")]))] (KSimple SString).
Theorem C50_urls_refuted : ~ C50_urls.
Proof.
  intros C.
  assert (M : @maps_ok byte_hasher linked).
  { apply one_shape_ok; [|reflexivity|exact I]. split; [split; [intros ? ? []|exact I]|]. repeat (constructor; cbn). intros ? ? []. }
  destruct (C byte_hasher no_f64 plain_label (@namespaces byte_hasher linked) linked (described (@namespaces byte_hasher linked) linked)
    (ex_id "A") (snd (hd (ex_id "A", motd_date) (m_shapes linked))) (lit "Home") (lit "https://example.org") M (Permutation_refl _) eq_refl)
    as (c & e & links & Ic & Ie & Il & Iu).
  - left. reflexivity.
  - discriminate.
  - left. reflexivity.
  - vm_compute in Ic. destruct Ic as [<-|[]]. vm_compute in Ie. destruct Ie as [<-|[]]. vm_compute in Il. destruct Il as [<-|[]].
    vm_compute in Iu. destruct Iu as [Iu|[]]. discriminate.
Qed.
Print Assumptions C50_urls_refuted.
