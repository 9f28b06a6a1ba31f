(** Models that are read are well formed. *)
From Verif.Model Require Import Json Builder SmithyParse.
From Verif.Model Require Assembler.
From Verif.Spec Require Import BuilderSpec ReaderSpec.
From Verif.Proofs Require Import BaseFacts HashMapFacts ValueFacts ShapeFacts ModelFacts MergeFacts IdentityFacts PegFacts BuilderFacts JsonFacts.
From Verif.Proofs Require AssemblerFacts IdlSound.
From Verif.Spec Require IdlLanguageSpec.

Lemma forall_insert {K V} keq (EQ : equivb keq) (P : V -> Prop) k v (l : list (K * V)) :
  Forall (fun e => P (snd e)) l -> P v -> Forall (fun e => P (snd e)) (hm_insert keq k v l).
Proof.
  intros F Pv. apply Forall_forall. intros [k0 v0] I. cbn. apply hm_insert_In in I as [I|(-> & _)]; auto.
  rewrite Forall_forall in F. apply (F _ I).
Qed.
Lemma forall_from_list {K V} keq (EQ : equivb keq) (P : V -> Prop) (l : list (K * V)) :
  Forall (fun e => P (snd e)) l -> Forall (fun e => P (snd e)) (hm_from_list keq l).
Proof.
  intros F. apply Forall_forall. intros [k v] I. cbn. apply (from_list_In keq EQ) in I as [[k' A] _].
  rewrite Forall_forall in F. apply (F _ A).
Qed.
Lemma from_list_key {K V} keq (EQ : equivb keq) (l : list (K * V)) k v :
  In (k, v) (hm_from_list keq l) -> exists k', In (k', v) l /\ keq k k' = true.
Proof.
  unfold hm_from_list.
  assert (G : forall acc, In (k, v) (fold_left (fun m kv => hm_insert keq (fst kv) (snd kv) m) l acc) ->
              exists k', (In (k', v) l \/ In (k', v) acc) /\ keq k k' = true).
  { induction l as [|[k0 v0] l IH]; intros acc J; cbn in *; [exists k; split; [right; exact J|apply (eqv_refl _ EQ)]|].
    apply IH in J as (k' & [A|A] & E); [exists k'; auto|].
    clear IH. assert (J : In (k', v) acc \/ (v = v0 /\ keq k' k0 = true)).
    { clear E. induction acc as [|[k1 v1] acc IHa]; cbn in A.
      - destruct A as [A|[]]. injection A as <- <-. right. split; [reflexivity|apply (eqv_refl _ EQ)].
      - destruct (keq k1 k0) eqn:Q.
        + destruct A as [A|A]; [injection A as <- <-; right; split; [reflexivity|exact Q]|left; right; exact A].
        + destruct A as [A|A]; [left; left; exact A|]. destruct (IHa A) as [B|B]; [left; right; exact B|right; exact B]. }
    destruct J as [J|[-> Q]]; [exists k'; auto|]. exists k0. split; [left; left; reflexivity|]. eapply (eqv_trans _ EQ); eassumption. }
  intros J. apply G in J as (k' & [A|[]] & E). eauto.
Qed.

Section WithHasher.
  Context `{Hasher}.

  (** ** Adding to a model, also when that fails *)
  Definition tv_good (t : shape_id * option value) : Prop := match snd t with Some v => value_ok v | None => True end.
  Lemma apply_keep ts i v : traits_ok ts -> tv_good (i, v) -> traits_ok (fst (apply_with_value ts i v)).
  Proof.
    intros W Wv. assert (K := W). destruct K as [D1 W1]. unfold apply_with_value.
    destruct (sid_is_member i) eqn:Mb; [exact W|].
    assert (Mi : sid_member i = None). { unfold sid_is_member in Mb. destruct (sid_member i); [discriminate|reflexivity]. }
    assert (Q : forall x, tv_good (i, x) -> traits_ok (hm_insert sid_key_eqb i x ts)).
    { intros x Wx. split; [apply distinct_insert; [apply sid_key_equiv|exact D1]|].
      apply Forall_forall. intros [i' v'] I. apply hm_insert_In in I as [I|(-> & _ & [->|(v2 & I)])]; auto with equivb.
      - rewrite Forall_forall in W1. apply (W1 _ I).
      - rewrite Forall_forall in W1. destruct (W1 _ I) as [Z _]. cbn in *. split; assumption. }
    destruct (trait_named i ts) as [o|] eqn:G; [|apply Q; exact Wv].
    assert (Wo : tv_good (i, o)). { unfold trait_named in G. apply hm_get_Some_In in G as (k1 & I & _). rewrite Forall_forall in W1. apply (W1 _ I). }
    destruct (merge_traits i o v) as [nv| |] eqn:Mg; cbn [fst]; try exact W. apply Q.
    apply (merge_traits_spec i) in Mg; auto. inversion Mg as [|? ? ? CV]; subst; cbn in *; [exact I|].
    inversion CV; subst; auto. inversion Wo; inversion Wv; subst. constructor. apply Forall_app; auto.
  Qed.
  Lemma append_keep l : forall ts, traits_ok ts -> Forall tv_good l -> traits_ok (fst (append_traits ts l)).
  Proof.
    induction l as [|[i v] l IH]; intros ts W F; cbn; [exact W|]. inversion F as [|? ? Wv F']; subst.
    pose proof (apply_keep ts i v W Wv) as A. destruct (apply_with_value ts i v) as [ts1 [u| |]]; cbn in *; auto.
  Qed.
  Lemma traits_tv ts : traits_ok ts -> Forall tv_good ts.
  Proof. intros [_ F]. revert F. apply Forall_impl. intros t [_ W]. exact W. Qed.
  Definition all_whole (m : model) : Prop := Forall (fun e => shape_whole (snd e)) (m_shapes m).
  Lemma add_whole m s : all_whole m -> shape_whole s -> all_whole (fst (add_shape m s)).
  Proof.
    intros Wm Ws. unfold all_whole in *.
    destruct (add_shape_cases m s) as [M U|W' F'|e W' F' N1 N2 E|e W' F' N1 N2 E|e ts r W' F' C A]; try assumption.
    - apply (forall_insert sid_key_eqb sid_key_equiv shape_whole); assumption.
    - assert (We : shape_whole e).
      { unfold model_shape in F'. apply hm_get_Some_In in F' as (k' & I & _). rewrite Forall_forall in Wm. apply (Wm _ I). }
      apply Forall_forall. intros [k0 v0] I. cbn in *.
      apply hm_update_In in I as [I|(v1 & I & -> & _)]; [rewrite Forall_forall in Wm; apply (Wm _ I)|].
      assert (T : traits_ok ts).
      { pose proof (append_keep (ts_traits s) (ts_traits e)) as K. rewrite A in K. apply K; [apply We|apply traits_tv, Ws]. }
      destruct We as ((_ & B) & We2), Ws as ((_ & B') & Ws2). unfold shape_whole, shape_ok. cbn [ts_traits ts_body].
      destruct (ts_body e); cbn [merged_body]; split; auto.
  Qed.
  Lemma adds_whole l : forall m, all_whole m -> Forall shape_whole l -> all_whole (adds m l).
  Proof.
    induction l as [|s l IH]; intros m W F; cbn; [exact W|]. inversion F; subst. apply IH; [apply add_whole|]; assumption.
  Qed.
  Lemma merge_shapes_adds l : forall m m', merge_shapes m l = (m', Ok tt) -> m' = adds m (map snd l).
  Proof.
    induction l as [|[k s] l IH]; intros m m' E; cbn in E; [injection E as <-; reflexivity|]. cbn [map snd adds fold_left].
    destruct (add_shape m s) as [m1 [u|e|]] eqn:A; try discriminate. cbn [fst]. apply IH. exact E.
  Qed.
  Lemma whole_ok l : Forall shape_whole l -> Forall shape_ok l.
  Proof. apply Forall_impl. intros s W. apply W. Qed.
  (** What is made by adding shapes to a model without shapes. *)
  Lemma adds_model m l : keys_ok m -> m_shapes m = [] -> Forall (fun e => value_ok (snd e)) (m_metadata m) -> Forall shape_whole l ->
    model_whole (adds m l).
  Proof.
    intros K E Md F. assert (W : all_whole (adds m l)). { apply adds_whole; [|exact F]. unfold all_whole. rewrite E. constructor. }
    split; [|exact W]. split; [apply adds_keys_ok, K|]. split.
    - revert W. apply Forall_impl. intros e We. apply We.
    - rewrite (proj1 (adds_metadata l m)). exact Md.
  Qed.

  (** ** JSON *)
  Lemma read_value_whole j : value_ok (read_value j).
  Proof.
    induction j as [|b|n|b|s|l IH|l IH] using json_ind'; cbn; try constructor.
    - induction IH; cbn; constructor; auto.
    - apply from_list_distinct, str_eqb_equiv.
    - apply (forall_from_list str_eqb str_eqb_equiv). induction IH; cbn; constructor; auto.
  Qed.
  Lemma read_traits_whole ms ts : read_traits_of ms = Ok ts -> traits_ok ts.
  Proof.
    unfold read_traits_of. assert (N : traits_ok []) by (split; [exact I|constructor]).
    destruct (jm_get "traits" ms) as [[]|]; try (intros [= <-]; exact N). intros E. apply rbind_ok in E as (ts0 & R & E).
    unfold read_traits in R. apply rbind_ok in R as (l' & R & [= <-]). apply rmap_ok in R.
    assert (F : Forall tv_good (hm_from_list sid_key_eqb l')).
    { apply (forall_from_list sid_key_eqb sid_key_equiv (fun o => match o with Some v => value_ok v | None => True end)).
      clear E. induction R as [|x y l0 l1 Ex R IH]; constructor; auto. apply rbind_ok in Ex as (i & _ & [= <-]). apply read_value_whole. }
    pose proof (append_keep _ [] N F) as K. destruct (append_traits [] _) as [ts' [u|e|]]; try discriminate. injection E as <-. exact K.
  Qed.
  Definition member_whole (x : member_shape) : Prop := traits_ok (ms_traits x).
  Lemma read_member_whole j x : read_member j = Ok x -> member_whole x.
  Proof.
    unfold read_member. destruct j as [[]|]; try discriminate. destruct (jm_get "target" l) as [[]|]; try discriminate. intros E.
    apply rbind_ok in E as (i & _ & E). apply rbind_ok in E as (ts & T & [= <-]). exact (read_traits_whole _ _ T).
  Qed.
  Lemma read_members_whole j ms : read_members_of j = Ok ms ->
    distinct ident_key_eqb ms /\ (forall k x, In (k, x) ms -> same_name k (ms_id x)) /\ Forall member_whole (map snd ms).
  Proof.
    unfold read_members_of. destruct (jget "members" j) as [[]|]; try (intros [= <-]; cbn; repeat split; auto; intros ? ? []).
    intros E. apply rbind_ok in E as (l0 & R & [= <-]). apply rmap_ok in R. rewrite su_with_members_list.
    split; [apply from_list_distinct, ident_key_equiv|]. split.
    - intros k x I. apply (from_list_key _ ident_key_equiv) in I as (k' & I & Q). apply in_map_iff in I as (x' & [= <- <-] & _).
      apply ident_eqb_same, ident_key_eqb_eq, Q.
    - apply Forall_map. apply (forall_from_list ident_key_eqb ident_key_equiv member_whole). apply Forall_map. cbn.
      induction R as [|x y l1 l2 Ex R IH]; constructor; auto. unfold read_named_member in Ex. destruct (snd x); try discriminate.
      apply rbind_ok in Ex as (t & _ & Ex). apply rbind_ok in Ex as (n & _ & Ex). apply rbind_ok in Ex as (ts & T & [= <-]).
      exact (read_traits_whole _ _ T).
  Qed.
  Ltac step E a R := apply rbind_ok in E as (a & R & E).
  Definition body_whole (b : shape_kind) : Prop := body_ok b /\ members_named b /\ Forall member_whole (body_members b).
  Lemma read_renames_distinct j l : read_renames j = Ok l -> distinct sid_key_eqb l.
  Proof.
    unfold read_renames. destruct j as [[]|]; try discriminate; [|intros [= <-]; exact I]. intros E. step E l1 R. injection E as <-.
    apply from_list_distinct, sid_key_equiv.
  Qed.
  Lemma read_identifiers_distinct j l : read_identifiers j = Ok l -> distinct ident_key_eqb l.
  Proof.
    unfold read_identifiers. destruct j as [[]|]; try discriminate; [|intros [= <-]; exact I]. intros E. step E l1 R. injection E as <-.
    apply from_list_distinct, ident_key_equiv.
  Qed.
  Lemma read_body_whole j b : read_body j = Ok b -> body_whole b.
  Proof.
    assert (Easy : forall k, body_ok k -> match k with KStructure _ | KUnion _ => False | _ => True end -> body_members k = [] -> body_whole k).
    { intros k O N E. split; [exact O|]. split; [destruct k; exact I || destruct N|rewrite E; constructor]. }
    unfold read_body. destruct (jget "type" j) as [[]|]; try discriminate.
    destruct (simple_from_str s) as [st|e|]; [intros [= <-]; apply Easy; cbn; auto| |].
    all: repeat match goal with |- (if ?c then _ else _) = _ -> _ => destruct c end; try discriminate; intros E.
    all: try (injection E as <-; apply Easy; cbn; auto; fail).
    all: try (step E m1 R; apply read_member_whole in R;
              first [injection E as <-|step E m2 R2; apply read_member_whole in R2; injection E as <-];
              split; [exact I|]; split; [exact I|]; cbn; repeat (constructor; try assumption); fail).
    all: try (step E ms R; apply read_members_whole in R as (D & N & W); injection E as <-; split; [exact D|]; split; assumption).
    all: try (destruct (jget "version" j) as [[]|]; try discriminate; step E sv R1; step E ops R2; step E rs R3; step E rn R4; injection E as <-;
              apply Easy; cbn; auto; eapply read_renames_distinct; eassumption).
    all: try (step E i R1; step E o R2; step E es R3; injection E as <-; apply Easy; cbn; auto; fail).
    all: step E ids R0; step E c R1; step E p R2; step E r R3; step E u R4; step E d R5; step E l R6; step E ops R7; step E cops R8; step E rs R9;
         injection E as <-; apply Easy; cbn; auto; eapply read_identifiers_distinct; eassumption.
  Qed.
  Lemma read_shape_whole kv s : read_shape kv = Ok s -> shape_whole s.
  Proof.
    unfold read_shape. intros E. step E i R1. step E b R2. step E ts R3. injection E as <-.
    apply read_body_whole in R2 as (B1 & B2 & B3). split; [|split; assumption]. split; [|exact B1]. cbn.
    destruct (snd kv); try (injection R3 as <-; split; [exact I|constructor]). eapply read_traits_whole, R3.
  Qed.
  Lemma json_whole j m : Json.read_model j = Ok m -> model_whole m.
  Proof.
    unfold Json.read_model. destruct j; try discriminate. intros E. step E v R1.
    remember (read_metadata (jm_get "metadata" l)) as md eqn:Emd.
    assert (M : distinct str_eqb md /\ Forall (fun e => value_ok (snd e)) md).
    { subst md. unfold read_metadata. destruct (jm_get "metadata" l) as [[]|]; try (split; [exact I|constructor]).
      split; [apply from_list_distinct, str_eqb_equiv|]. apply (forall_from_list str_eqb str_eqb_equiv). apply Forall_map.
      apply Forall_forall. intros e _. apply read_value_whole. }
    destruct M as [D F]. rewrite merge_metadata_fill in E by exact D. step E ss R2.
    destruct (merge_shapes _ _) as [m' [[]|e|]] eqn:A; try discriminate. injection E as <-. apply merge_shapes_adds in A as ->.
    apply adds_model.
    - split; [cbn; tauto|]. split; [exact I|exact D].
    - reflexivity.
    - exact F.
    - apply Forall_map. apply Forall_map. cbn. unfold read_shapes in R2. destruct (jm_get "shapes" l) as [[]|]; try (injection R2 as <-; constructor).
      apply rmap_ok in R2. induction R2 as [|x y l1 l2 Ex R IH]; constructor; auto. eapply read_shape_whole, Ex.
  Qed.

  (** ** The IDL: from builders to models *)
  Lemma traits_from_ok b l ts : imports_plain b -> Forall tb_good l -> traits_from b l ts -> traits_ok ts.
  Proof.
    intros P V (ps & F & ->). split; [apply from_list_distinct, sid_key_equiv|]. apply Forall_forall. intros [i v] J. cbn.
    apply from_list_In in J as [[i' A] [v' B]]; [|apply sid_key_equiv]. split.
    - apply (Forall2_In_r _ _ _ _ F) in B as (t & _ & N & _). eapply resolved_plain; eauto.
    - apply (Forall2_In_r _ _ _ _ F) in A as (t & Jt & _ & E). cbn in E. subst v. rewrite Forall_forall in V. apply (V t Jt).
  Qed.
  Lemma member_from_ok b m x : imports_plain b -> mb_good m -> member_from b m x -> member_whole x.
  Proof. intros P G (_ & _ & T). exact (traits_from_ok b _ _ P G T). Qed.
  Lemma members_from_ok b l ms : imports_plain b -> Forall mb_good l -> members_from b l ms ->
    (forall k x, In (k, x) ms -> same_name k (ms_id x)) /\ Forall member_whole (map snd ms).
  Proof.
    intros P G (xs & F & ->). split.
    - intros k x I. apply (from_list_key _ ident_key_equiv) in I as (k' & I & Q). apply in_map_iff in I as (x' & [= <- <-] & _).
      apply ident_eqb_same, ident_key_eqb_eq, Q.
    - apply Forall_map. apply (forall_from_list ident_key_eqb ident_key_equiv member_whole). apply Forall_map. cbn.
      induction F as [|m x l xs M F IH]; constructor; inversion G; subst; auto. eapply member_from_ok; eauto.
  Qed.
  Lemma shape_from_whole b s sh : imports_plain b -> sb_good s -> shape_from b s sh -> shape_whole sh.
  Proof.
    intros P (V & G & _) F. split; [eapply shape_from_ok; eauto|]. destruct F as (_ & _ & Bd).
    clear V. generalize dependent (ts_body sh). intros k Bd. destruct (sb_body s); cbn [set_as_list builder_members] in *; inversion Bd; subst; cbn [members_named body_members];
      repeat match goal with G : Forall mb_good (_ :: _) |- _ => inversion G; clear G; subst end;
      try (eapply (members_from_ok b); eassumption); (split; [exact I|]);
      repeat (apply Forall_cons || apply Forall_nil); (eapply (member_from_ok b); [exact P| |eassumption]; eassumption).
  Qed.
  Definition builder_good (b : builder) : Prop :=
    builder_ok b /\ Forall (fun e => sb_good (snd e)) (bd_shapes b) /\ Forall (fun e => value_ok (snd e)) (bd_metadata b).
  Lemma good_plain b : builder_good b -> imports_plain b.
  Proof.
    intros ((_ & K & _) & G & _) q (s & J & R). rewrite Forall_forall in G. destruct (G _ J) as (_ & _ & N). cbn in N.
    destruct (N R) as (q' & Eq & M). destruct (K _ _ J) as [Q _]. rewrite Eq in Q. cbn in Q.
    apply sid_key_eqb_eq, sid_eqb_same in Q. destruct Q as (_ & _ & Om). rewrite M in Om. destruct (sid_member q); [destruct Om|reflexivity].
  Qed.
  Lemma built_whole b m : builder_good b -> build b = Ok m -> model_whole m.
  Proof.
    intros G B. assert (P := good_plain b G). destruct G as (OK & G & Md). pose proof (build_spec b OK) as S. rewrite B in S.
    destruct S as (shs & rs & F & -> & _). rewrite <- adds_app. apply adds_model.
    - split; [cbn; tauto|]. split; [exact I|apply OK].
    - reflexivity.
    - exact Md.
    - apply Forall_app. split.
      + clear - F G P. revert F. generalize dependent (bd_shapes b). intros l. revert shs. induction l as [|[k s] l IH]; intros shs G F; inversion F; subst; constructor; inversion G; subst; auto.
        eapply shape_from_whole; eauto.
      + apply Forall_map, Forall_forall. intros x _. split; [split; [split; [exact I|constructor]|exact I]|]. split; [exact I|constructor].
  Qed.
  Lemma good_insert b s : builder_good b -> sb_good s -> builder_good (bd_insert b s).
  Proof.
    intros (OK & G & Md) W. split; [|split; [|exact Md]].
    - apply builder_ok_insert; [|exact OK]. intros R. destruct W as (_ & _ & N). destruct (N R) as (q & E & _). eauto.
    - apply (forall_insert name_key_eqb); try assumption. apply name_key_equiv.
  Qed.
  Lemma good_metadata b k v : builder_good b -> value_ok v -> builder_good (bd_metadata_insert b k v).
  Proof.
    intros ((O1 & O2 & O3) & G & Md) W. split; [split; [exact O1|split; [exact O2|]]|split; [exact G|]].
    - cbn. apply distinct_insert; [apply str_eqb_equiv|exact O3].
    - cbn. apply (forall_insert str_eqb str_eqb_equiv value_ok); assumption.
  Qed.
  Lemma good_update b k s s0 : builder_good b -> hm_get name_key_eqb k (bd_shapes b) = Some s0 -> sb_name s = sb_name s0 ->
    (sb_body s = BReference -> sb_body s0 = BReference) -> sb_good s -> builder_good (bd_update b k s).
  Proof.
    intros (OK & G & Md) E N R W. split; [eapply builder_ok_update; eauto|]. split; [|exact Md]. cbn.
    apply Forall_forall. intros [k0 v0] I. cbn. apply hm_update_In in I as [I|(v1 & I & -> & _)]; [|exact W].
    rewrite Forall_forall in G. apply (G _ I).
  Qed.
  Lemma good_get b k s : builder_good b -> hm_get name_key_eqb k (bd_shapes b) = Some s -> sb_good s.
  Proof. intros (_ & G & _) E. apply hm_get_Some_In in E as (k' & I & _). rewrite Forall_forall in G. apply (G _ I). Qed.
  Lemma update_first_good p t l l' : Forall mb_good l -> tb_good t -> update_first p (fun x => mb_apply x t) l = Some l' -> Forall mb_good l'.
  Proof.
    intros F T. revert l'. induction F as [|x l X F IH]; intros l' E; [discriminate|]. cbn in E. destruct (p x).
    - injection E as <-. constructor; [|exact F]. apply Forall_app. split; [exact X|constructor; [exact T|constructor]].
    - destruct (update_first p _ l) as [l1|]; [|discriminate]. injection E as <-. constructor; auto.
  Qed.
  Lemma apply_to_member_good s m t s' : sb_good s -> tb_good t -> apply_to_member s m t = Some s' -> sb_good s'.
  Proof.
    intros (G1 & G2 & _) T A. destruct (apply_to_member_frame _ _ _ _ A) as (_ & Et & Nb). split; [rewrite Et; exact G1|]. split; [|intros; contradiction].
    assert (Ap : forall x, mb_good x -> mb_good (mb_apply x t)). { intros x X. apply Forall_app. split; [exact X|constructor; [exact T|constructor]]. }
    clear Et Nb G1. unfold apply_to_member in A. destruct (sb_body s); cbn [option_map] in A; try discriminate.
    - destruct (str_eqb m (lit "member")); [|discriminate]. injection A as <-. cbn in *. inversion G2; subst. constructor; [auto|constructor].
    - destruct (str_eqb m (lit "member")); [|discriminate]. injection A as <-. cbn in *. inversion G2; subst. constructor; [auto|constructor].
    - cbn in G2. inversion G2 as [|? ? K1 G3]; subst. inversion G3; subst.
      destruct (str_eqb m (lit "key")); [injection A as <-|destruct (str_eqb m (lit "value")); [injection A as <-|discriminate]]; cbn; repeat constructor; auto.
      all: try (apply Ap; assumption).
    - destruct (update_first _ _ ms) as [l'|] eqn:U; [|discriminate]. injection A as <-. eapply update_first_good; eauto.
    - destruct (update_first _ _ ms) as [l'|] eqn:U; [|discriminate]. injection A as <-. eapply update_first_good; eauto.
  Qed.
  Lemma apply_qualified_good b id t b' : builder_good b -> tb_good t -> apply_to_qualified b id t = Ok b' -> builder_good b'.
  Proof.
    intros G T. unfold apply_to_qualified. destruct (sid_member id) as [m|] eqn:M.
    - destruct (hm_get _ _ _) as [s|] eqn:E; [|discriminate]. destruct (apply_to_member s m t) as [s'|] eqn:A; [|discriminate].
      intros [= <-]. destruct (apply_to_member_frame _ _ _ _ A) as (N & _ & R). eapply good_update; eauto; [contradiction|].
      eapply apply_to_member_good; [eapply good_get; eauto|exact T|exact A].
    - destruct (hm_get _ _ _) as [s|] eqn:E; intros [= <-].
      + destruct (good_get _ _ _ G E) as (G1 & G2 & G3). eapply good_update; eauto.
        split; [|split; [exact G2|exact G3]]. apply Forall_app. split; [exact G1|constructor; [exact T|constructor]].
      + apply good_insert; [exact G|]. split; [constructor; [exact T|constructor]|]. split; [constructor|]. intros _. exists id. auto.
  Qed.
  Lemma good_step b o b' : op_good o -> builder_good b -> builder_step b o = Ok b' -> builder_good b'.
  Proof.
    intros O G. destruct o as [s|id|s t|k v]; cbn in *.
    - intros [= <-]. apply good_insert; assumption.
    - unfold bd_uses, reference_new. destruct (sid_from_str id) as [i| |]; cbn; try discriminate. intros [= <-].
      apply good_insert; [assumption|]. split; [constructor|]. split; [constructor|]. intros _. exists i. auto.
    - unfold bd_apply. destruct (shape_name_from_str s) as [[i|n]| |]; cbn [unwrap rbind]; try discriminate; cbn [apply_to].
      + apply apply_qualified_good; assumption.
      + pose proof (resolve_sound b (Local n) false (proj1 G)) as Rs.
        destruct (resolve_shape_name b (Local n) false) as [[i fr]| |]; cbn [unwrap rbind]; try discriminate.
        apply apply_qualified_good; [|assumption]. destruct fr; [|assumption]. apply good_insert; [assumption|].
        split; [constructor|]. split; [constructor|]. intros _. exists i. split; [reflexivity|]. inversion Rs; reflexivity.
    - intros [= <-]. apply good_metadata; assumption.
  Qed.
  Lemma good_run ops : forall b b', Forall op_good ops -> builder_good b -> builder_run b ops = Ok b' -> builder_good b'.
  Proof.
    induction ops as [|o ops IH]; intros b b' F W E; [injection E as <-; exact W|]. cbn in E. inversion F; subst.
    apply rbind_ok in E as (b1 & E1 & E). eapply IH; [eassumption| |exact E]. eapply good_step; eassumption.
  Qed.
  Lemma good_new v ns b : builder_new v ns = Ok b -> builder_good b.
  Proof.
    intros E. split; [apply (builder_ok_new _ _ _ E)|]. unfold builder_new in E. apply rbind_ok in E as (n & _ & E). injection E as <-. split; constructor.
  Qed.
  (** ** Merging *)
  Lemma merge_whole m o : model_whole m -> model_whole o -> snd (merge m o) = Ok tt -> model_whole (fst (merge m o)).
  Proof.
    intros [Wm Am] [Wo Ao] R. split; [apply AssemblerFacts.merge_model_ok; assumption|].
    unfold merge in *. destruct (negb _); [discriminate|]. destruct (merge_metadata_shapes (m_metadata o) m) as [S1 _].
    destruct (merge_metadata m (m_metadata o)) as [m1 [u|e|]]; cbn [fst snd] in *; try discriminate.
    destruct (merge_shapes m1 (m_shapes o)) as [m2 [[]|e|]] eqn:A; cbn [fst snd] in *; try discriminate.
    apply merge_shapes_adds in A as ->. apply adds_whole; [unfold all_whole; rewrite S1; exact Am|]. apply Forall_map. exact Ao.
  Qed.
  Lemma merge_all_whole os : forall m m', model_whole m -> Forall model_whole os -> Assembler.merge_all m os = Ok m' -> model_whole m'.
  Proof.
    induction os as [|o os IH]; intros m m' W F E; cbn in E; [injection E as <-; exact W|]. inversion F; subst.
    pose proof (merge_whole m o W) as M. destruct (merge m o) as [m1 [[]|e|]]; try discriminate. cbn in M. eapply IH; [apply M|..]; auto.
  Qed.
End WithHasher.

(** ** The IDL: from texts to builders *)
(** Every pair is what its rule takes off some text. *)
Notation takes := (PegFacts.yields smithy_grammar).
Inductive honest : ipair -> Prop :=
| honest_pair at_ r t ps ps0 s s' : takes at_ (PCall r) s ps0 s' -> t = Peg.taken s s' -> Forall honest ps -> honest (Pair r t ps).
Lemma yields_honest at_ e s ps s' : takes at_ e s ps s' -> Forall honest ps.
Proof.
  induction 1; try constructor; try assumption; try (apply Forall_app; split; assumption).
  unfold seen. destruct at_; [constructor|].
  assert (Q : honest (Pair q (Peg.taken s s') ps)) by (econstructor; [constructor; eassumption|reflexivity|assumption]).
  destruct (fst (g_rule smithy_grammar q)); try assumption; constructor; auto.
Qed.
Lemma honest_text r t ps (L : IdlLanguageSpec.lang) : honest (Pair r t ps) -> (forall n at_, IdlSound.reads n at_ (icall r) L) -> L t.
Proof.
  intros Hp R. inversion Hp as [at_ r0 t0 ps1 ps0 s s' Y E F]; subst. destruct (R (length s) at_ s ps0 s' (Nat.le_refl _) Y) as (t & -> & Lt).
  rewrite taken_app. exact Lt.
Qed.
Lemma honest_inner p : honest p -> Forall honest (p_inner p).
Proof. destruct 1. assumption. Qed.
Lemma identifier_dollar t : SelectorSpec.short_identifier t -> ~ In "$"%char t.
Proof.
  intros (c & rest & E & A & F) I. rewrite Forall_forall in F.
  assert (C : is_alpha "$"%char = true \/ is_digit "$"%char = true \/ "$"%char = "_"%char).
  { destruct E as [-> | ->]; cbn [In] in I; decompose [or] I; subst; auto; discriminate. }
  destruct C as [C|[C|C]]; vm_compute in C; discriminate.
Qed.
Lemma dotted_dollar t : SmithySpec.dotted_name t -> ~ In "$"%char t.
Proof.
  intros (ids & _ & F & ->). induction F as [|a ids Sa F IH]; [intros []|]. destruct ids as [|b ids]; [apply identifier_dollar, Sa|].
  change (join ["."%char] (a :: b :: ids)) with (a ++ ["."%char] ++ join ["."%char] (b :: ids)). intros I.
  apply in_app_iff in I as [I|[I|I]]; [exact (identifier_dollar _ Sa I)|discriminate|exact (IH I)].
Qed.
Lemma absolute_root t i : IdlLanguageSpec.absolute_id t -> sid_from_str t = Ok i -> sid_member i = None.
Proof.
  intros (a & b & A & (c & d & C & (e & f & S & -> & ->) & ->) & ->) E. apply sid_from_str_sound in E as [_ E].
  destruct (sid_member i) as [m|] eqn:M; [|reflexivity]. exfalso.
  assert (I : In "$"%char (IdentitySpec.id_text i)).
  { unfold IdentitySpec.id_text. rewrite M. apply in_app_iff. right. right. apply in_app_iff. right. left. reflexivity. }
  rewrite <- E in I. apply in_app_iff in I as [I|I]; [exact (dotted_dollar _ A I)|]. apply in_app_iff in I as [I|I].
  - red in C. subst c. cbn in I. destruct I as [I|[]]. discriminate.
  - rewrite app_nil_r in I. exact (identifier_dollar _ S I).
Qed.

Lemma fold_inv {S A} (J : S -> Prop) (f : S -> A -> result S) l :
  (forall x s s', In x l -> J s -> f s x = Ok s' -> J s') -> forall s, J s -> forall s', fold_result f l s = Ok s' -> J s'.
Proof.
  induction l as [|x l IH]; intros St s Js s' E; [injection E as <-; exact Js|]. cbn in E.
  destruct (f s x) as [s1|e|] eqn:F; try discriminate. refine (IH _ s1 _ s' E).
  - intros x0 s0 s0' I. apply St. right. exact I.
  - exact (St x s s1 (or_introl eq_refl) Js F).
Qed.
Section PairInd.
  Variable P : ipair -> Prop.
  Hypothesis step : forall r t ps, Forall P ps -> P (Pair r t ps).
  Fixpoint pair_ind' (p : ipair) : P p :=
    match p with
    | Pair r t ps => step r t ps ((fix go (l : list ipair) : Forall P l :=
                                     match l with [] => Forall_nil _ | x :: l' => Forall_cons _ (pair_ind' x) (go l') end) ps)
    end.
End PairInd.

Section Idl.
  Variable f64_parse : str -> Z.
  Context `{Hasher}.
  Notation idl_value := (idl_value f64_parse).
  Ltac step E a R := apply rbind_ok in E as (a & R & E).
  Ltac cut E := repeat match type of E with (match ?c with _ => _ end) = Ok _ => destruct c eqn:?; try discriminate E end.
  Definition opt_good (o : option value) : Prop := match o with Some v => value_ok v | None => True end.
  Lemma both_ok {A B} fn (a : option A) (b : option B) x : both fn a b = Ok x -> a = Some (fst x) /\ b = Some (snd x).
  Proof. unfold both. destruct a, b; intros E; try discriminate. injection E as <-. auto. Qed.
  (** The values made from a pair and from everything inside it. *)
  Inductive within (p : ipair) : ipair -> Prop :=
  | w_self : within p p
  | w_inner q d : In q (p_inner p) -> within q d -> within p d.
  Lemma idl_value_deep p : forall d, within p d -> forall v, idl_value d = Ok v -> value_ok v.
  Proof.
    induction p as [r t ps IH] using pair_ind'. rewrite Forall_forall in IH. intros d W.
    inversion W as [|q ? I W']; subst; [|exact (IH q I d W')]. clear W.
    assert (Deep : forall q d, In q ps -> within q d -> forall v, idl_value d = Ok v -> value_ok v) by (intros; eauto). clear IH.
    intros v E. destruct ps as [|[r1 t1 inner] more]; cbn [SmithyParse.idl_value] in E; [discriminate|].
    assert (Dn : forall q d, In q inner -> within q d -> forall v, idl_value d = Ok v -> value_ok v).
    { intros q d Iq Wq. apply (Deep (Pair r1 t1 inner) d); [left; reflexivity|]. eapply w_inner; eauto. }
    destruct r1; try discriminate; try (injection E as <-; constructor).
    - step E vs R. injection E as <-. constructor. revert R. apply (fold_inv (Forall value_ok)); [|constructor].
      intros [rq tq iq] l l' Iq Fl E. destruct rq; try discriminate. step E v R. injection E as <-. apply Forall_app. split; [exact Fl|].
      constructor; [|constructor]. eapply Dn; [exact Iq|apply w_self|exact R].
    - step E vs R. injection E as <-.
      assert (Q : distinct str_eqb vs /\ Forall (fun kv => value_ok (snd kv)) vs); [|constructor; apply Q].
      revert R. apply (fold_inv (fun vs => distinct str_eqb vs /\ Forall (fun kv => value_ok (snd kv)) vs)); [|split; [exact I|constructor]].
      intros [rq tq kv] l l' Iq [D F] E. destruct rq; try discriminate. step E s R1. step E e R2. injection E as <-.
      split; [apply distinct_insert; [apply str_eqb_equiv|exact D]|]. apply (forall_insert str_eqb str_eqb_equiv value_ok); [exact F|].
      apply both_ok in R2 as [_ R2]. assert (O : opt_good (snd s)); [|rewrite R2 in O; exact O].
      revert R1. apply (fold_inv (fun s => opt_good (snd s))); [|exact I].
      intros [ri ti ii] s0 s1 Ii O E. unfold kvp_step in E. destruct ri; try discriminate; try (injection E as <-; exact O).
      step E v R. injection E as <-. cbn. eapply Dn; [exact Iq| |exact R]. eapply w_inner; [exact Ii|apply w_self].
    - unfold idl_number in E. destruct (existsb _ _); [injection E as <-; constructor|]. destruct (SelectorParse.i64_from_str _); [injection E as <-; constructor|discriminate].
    - destruct inner as [|[ri ti ii] rest]; [discriminate|]. cbn in E. destruct ri; try discriminate. injection E as <-. constructor.
    - destruct inner as [|[ri ti ii] rest]; [discriminate|]. cbn in E. destruct ri; try discriminate. injection E as <-. constructor.
  Qed.
  Lemma idl_value_whole p v : idl_value p = Ok v -> value_ok v.
  Proof. apply (idl_value_deep p p). apply w_self. Qed.
  Definition map_good (l : list (str * value)) : Prop := distinct str_eqb l /\ Forall (fun kv => value_ok (snd kv)) l.
  Lemma map_insert l k v : map_good l -> value_ok v -> map_good (hm_insert str_eqb k v l).
  Proof.
    intros [D F] V. split; [apply distinct_insert; [apply str_eqb_equiv|exact D]|]. apply (forall_insert str_eqb str_eqb_equiv value_ok); assumption.
  Qed.
  Lemma map_nil : map_good []. Proof. split; [exact I|constructor]. Qed.
  Lemma kvp_whole p e : idl_kvp f64_parse p = Ok e -> value_ok (snd e).
  Proof.
    unfold idl_kvp. intros E. step E s R. apply both_ok in E as [_ E]. assert (O : opt_good (snd s)); [|rewrite E in O; exact O].
    revert R. apply (fold_inv (fun s => opt_good (snd s))); [|exact I].
    intros [ri ti ii] s0 s1 Ii O X. unfold kvp_step in X. destruct ri; try discriminate; try (injection X as <-; exact O).
    step X v R. injection X as <-. apply (idl_value_whole _ _ R).
  Qed.
  Lemma statements_whole is_st p l : idl_statements f64_parse is_st p = Ok l -> map_good l.
  Proof.
    unfold idl_statements. intros E. revert E. apply (fold_inv map_good); [|apply map_nil]. intros q s s' _ G E.
    destruct (is_st (p_rule q)); [|discriminate]. step E e R. injection E as <-. apply map_insert; [exact G|]. apply (kvp_whole _ _ R).
  Qed.
  Lemma trait_kvp_whole p e : trait_kvp f64_parse p = Ok e -> value_ok (snd e).
  Proof.
    unfold trait_kvp. intros E. step E s R. apply both_ok in E as [_ E]. assert (O : opt_good (snd s)); [|rewrite E in O; exact O].
    revert R. apply (fold_inv (fun s => opt_good (snd s))); [|exact I].
    intros i s0 s1 Ii O X. unfold trait_kvp_step in X. destruct (p_rule i); try discriminate; try (injection X as <-; exact O).
    - step X v R. injection X as <-. apply (idl_value_whole _ _ R).
    - step X k R. destruct k; try discriminate. injection X as <-. exact O.
  Qed.
  Lemma trait_new_good id v t : trait_new id (Some v) = Ok t -> value_ok v -> tb_good t.
  Proof. unfold trait_new. intros E V. step E n R. injection E as <-. exact V. Qed.
  Lemma a_trait_good p t : a_trait f64_parse p = Ok t -> tb_good t.
  Proof.
    unfold a_trait. intros E. step E s R.
    assert (G : opt_good (snd (fst s)) /\ map_good (snd s)).
    { revert R. apply (fold_inv (fun s => opt_good (snd (fst s)) /\ map_good (snd s))); [|split; [exact I|apply map_nil]].
      intros i [[id v] ms] s' _ [G1 G2] X. unfold a_trait_step in X. destruct (p_rule i); try discriminate.
      - injection X as <-. split; assumption.
      - step X x R. injection X as <-. split; [apply (idl_value_whole _ _ R)|exact G2].
      - step X e R. injection X as <-. split; [exact G1|]. apply map_insert; [exact G2|apply (trait_kvp_whole _ _ R)]. }
    destruct s as [[id v] ms]. cbn in G. destruct G as [G1 G2].
    destruct v as [v|], ms as [|e ms], id as [id|]; try discriminate; eapply trait_new_good; try exact E; try exact G1; constructor; apply G2 || apply map_nil.
  Qed.
  Lemma trait_statements_good p l : trait_statements f64_parse p = Ok l -> Forall tb_good l.
  Proof.
    unfold trait_statements. apply (fold_inv (Forall tb_good)); [|constructor]. intros q s s' _ G E. destruct (p_rule q); try discriminate. step E t R. injection E as <-.
    apply Forall_app. split; [exact G|]. constructor; [|constructor]. apply (a_trait_good _ _ R).
  Qed.
  Lemma applied_good doc ts l : Forall tb_good ts -> applied doc ts = Ok l -> Forall tb_good l.
  Proof.
    intros G E. unfold applied in E. destruct doc; [injection E as <-; exact G|]. step E d R. injection E as <-. constructor; [|exact G].
    eapply trait_new_good; [exact R|constructor].
  Qed.
  Lemma shape_member_good p m : shape_member f64_parse p = Ok m -> mb_good m.
  Proof.
    unfold shape_member. intros E. step E s R. step E e R1. step E m0 R2. step E ts R3. injection E as <-. apply (applied_good _ _ _) in R3; [exact R3|].
    revert R. apply (fold_inv (fun s => Forall tb_good (mp_traits s))); [|constructor].
    intros i s0 s1 _ G X. unfold member_step in X. destruct (p_rule i); try discriminate; try (injection X as <-; exact G).
    step X l R. injection X as <-. apply (trait_statements_good _ _ R).
  Qed.
  Lemma membered_good p x : membered_statement f64_parse p = Ok x -> Forall mb_good (snd x).
  Proof.
    unfold membered_statement. intros E. step E y R. destruct y as [n more]. destruct (p_rule n); try discriminate. step E z R1. destruct z as [q q'].
    destruct (p_rule q); try discriminate. step E ms R2. injection E as <-. cbn. revert R2. unfold shape_members. apply (fold_inv (Forall mb_good)); [|constructor].
    intros i s s' _ G X. destruct (p_rule i); try discriminate. step X m R2. injection X as <-. apply Forall_app. split; [exact G|].
    constructor; [apply (shape_member_good _ _ R2)|constructor].
  Qed.
  Definition body_good (s : shape_builder) : Prop := Forall mb_good (builder_members (sb_body s)) /\ sb_body s <> BReference.
  Lemma body_statement_good p r s : body_statement f64_parse p = Some r -> r = Ok s -> body_good s.
  Proof.
    assert (N : forall t, mb_good (MB (lit "member") [] t)) by (intros; constructor).
    unfold body_statement. intros E ->. destruct (p_rule p); try discriminate; injection E as E.
    all: try (unfold list_statement in E; step E x R; destruct (snd x) as [|? [|]]; try discriminate; destruct (ident_eqb _ _); try discriminate;
              step E n R1; injection E as <-; split; [cbn; repeat (apply Forall_cons || apply Forall_nil); apply N|discriminate]).
    all: try (unfold members_statement in E; step E x R; apply membered_good in R; step E n R1; injection E as <-; split; [exact R|discriminate]).
    - unfold simple_statement in E. step E s0 R. step E e R1. unfold simple_new in E. step E n R2. injection E as <-. split; [constructor|discriminate].
    - unfold map_statement in E. step E x R. step E s0 R1. step E e R2. unfold map_new in E. step E n R3. step E k R4. step E v R5. injection E as <-.
      unfold member_new in R4, R5. step R4 a1 A1. step R4 a2 A2. injection R4 as <-. step R5 b1 B1. step R5 b2 B2. injection R5 as <-.
      split; [cbn; repeat (apply Forall_cons || apply Forall_nil); constructor|discriminate].
    - unfold service_statement in E. step E x R. destruct (hm_get _ _ _); try discriminate. step E v0 R1. step E n R2. step E s0 R3. injection E as <-. split; [constructor|discriminate].
    - unfold operation_statement in E. step E x R. step E n R2. step E s0 R3. injection E as <-. split; [constructor|discriminate].
    - unfold resource_statement in E. step E x R. step E n R2. step E s0 R3. injection E as <-. split; [constructor|discriminate].
  Qed.
  Lemma shape_statement_good p b b' : builder_good b -> shape_statement f64_parse p b = Ok b' -> builder_good b'.
  Proof.
    intros G E. unfold shape_statement in E. step E s R. injection E as <-.
    assert (K : Forall tb_good (snd (fst s)) /\ builder_good (snd s)); [|apply K]. revert R.
    apply (fold_inv (fun s => Forall tb_good (snd (fst s)) /\ builder_good (snd s))); [|split; [constructor|exact G]].
    intros q [[doc ts] b0] s' _ [T B] X. cbn [fst snd] in *. unfold statement_step in X.
    assert (Last : forall X0, X0 = match body_statement f64_parse q with
                          | Some r => sb <- r ;; all <- applied doc ts ;; Ok (doc, ts, bd_insert b0 (SB (sb_name sb) all (sb_body sb)))
                          | None => SelectorParse.unexpected "parse_shape_statement"
                          end -> X0 = Ok s' -> Forall tb_good (snd (fst s')) /\ builder_good (snd s')).
    { intros ? -> Z0. destruct (body_statement f64_parse q) as [r|] eqn:Bq; [|discriminate]. step Z0 sb R. step Z0 every R1. injection Z0 as <-.
      apply (body_statement_good q r sb Bq) in R as [G1 G2]. split; [exact T|]. apply good_insert; [exact B|].
      split; [apply (applied_good _ _ _ T R1)|]. split; [exact G1|]. cbn. intros Z. contradiction. }
    destruct (p_rule q) eqn:Eq; try (apply (Last _ eq_refl X)).
    all: try (injection X as <-; split; assumption).
    step X ts' R. injection X as <-. split; [apply (trait_statements_good _ _ R)|exact B].
  Qed.
  Lemma shape_statements_good p b b' : builder_good b -> shape_statements f64_parse p b = Ok b' -> builder_good b'.
  Proof.
    intros G. unfold shape_statements. intros E. revert E. apply (fold_inv builder_good); [|exact G]. clear G. intros q s s' _ G E. destruct (p_rule q); try discriminate.
    - injection E as <-. exact G.
    - exact (shape_statement_good _ _ _ G E).
  Qed.
  Lemma next_in {A} (l : list A) x : SelectorParse.next l = Ok x -> In (fst x) l /\ (forall a, In a (snd x) -> In a l).
  Proof. destruct l; cbn; intros E; [discriminate|]. injection E as <-. cbn. auto. Qed.
  Lemma use_section_good p b b' : honest p -> builder_good b -> use_section p b = Ok b' -> builder_good b'.
  Proof.
    intros Hp G E. unfold use_section in E. revert E. apply (fold_inv builder_good); [|exact G]. clear G. intros q s s' Iq G E. destruct (p_rule q); try discriminate.
    step E x R. apply next_in in R as [R _]. destruct x as [i more]. cbn in R. destruct (p_rule i) eqn:Ei; try discriminate.
    assert (Hi : honest i).
    { apply honest_inner in Hp. rewrite Forall_forall in Hp. specialize (Hp q Iq). apply honest_inner in Hp. rewrite Forall_forall in Hp. exact (Hp i R). }
    unfold bd_uses in E. step E rf R1. injection E as <-. unfold reference_new in R1. step R1 j R2. injection R1 as <-.
    apply good_insert; [exact G|]. split; [constructor|]. split; [constructor|]. intros _. exists j. split; [reflexivity|].
    destruct i as [ri ti ii]. cbn in *. subst ri. apply (absolute_root ti).
    - apply (honest_text _ _ _ _ Hi). intros n at_. apply IdlSound.reads_absolute.
    - unfold unwrap in R2. destruct (sid_from_str ti); congruence.
  Qed.
  Lemma namespace_good v p b : namespace_statement v p = Ok b -> builder_good b.
  Proof.
    unfold namespace_statement. intros E. step E x R. destruct x as [i more]. destruct (p_rule i); try discriminate.
    split; [apply (builder_ok_new _ _ _ E)|]. unfold builder_new in E. step E n R1. injection E as <-. split; constructor.
  Qed.
  Lemma shape_section_good v p o : honest p -> shape_section f64_parse v p = Ok o -> match o with Some b => builder_good b | None => True end.
  Proof.
    intros Hp E. unfold shape_section in E. revert E.
    apply (fold_inv (fun o => match o with Some b => builder_good b | None => True end)); [|exact I].
    intros q s s' Iq G E. destruct (p_rule q); try discriminate.
    - step E b R. injection E as <-. apply (namespace_good _ _ _ R).
    - destruct s as [b|]; [|discriminate]. step E b' R. injection E as <-. eapply use_section_good; [|exact G|exact R].
      apply honest_inner in Hp. rewrite Forall_forall in Hp. exact (Hp q Iq).
    - destruct s as [b|]; [|discriminate]. step E b' R. injection E as <-. eapply shape_statements_good; [exact G|exact R].
  Qed.
  Lemma next_section_ok {A} is_s (f : ipair -> result A) l x : next_section is_s f l = Ok x ->
    exists p, In p l /\ f p = Ok (fst x) /\ (forall q, In q (snd x) -> In q l).
  Proof.
    unfold next_section. intros E. step E y R. destruct (next_in _ _ R) as [I1 I2]. destruct y as [p more]. cbn in *. destruct (is_s (p_rule p)); [|discriminate].
    step E a R1. injection E as <-. exists p. auto.
  Qed.
  Lemma default_whole : model_whole (model_new V10).
  Proof. split; [|constructor]. split; [split; [intros ? ? []|split; exact I]|split; constructor]. Qed.
  Lemma parse_idl_whole p m : honest p -> parse_idl f64_parse p = Ok m -> model_whole m.
  Proof.
    intros Hp E. unfold parse_idl in E. destruct (p_rule p); try discriminate. step E c R1. step E v R2. step E md R3. step E sc R4.
    apply next_section_ok in R1 as (p1 & _ & _ & I1). apply next_section_ok in R3 as (p3 & _ & M3 & I3). apply next_section_ok in R4 as (p4 & I4 & M4 & _).
    assert (H4 : honest p4). { apply honest_inner in Hp. rewrite Forall_forall in Hp. auto. }
    apply (shape_section_good _ _ _ H4) in M4. destruct (fst sc) as [b|]; [|injection E as <-; apply default_whole].
    eapply built_whole; [|exact E]. apply statements_whole in M3 as [_ F]. revert M4. generalize b. clear - F. induction F as [|e l V F IH]; intros b G; cbn; [exact G|].
    apply IH. apply good_metadata; assumption.
  Qed.
  Lemma idl_whole t m : parse_model f64_parse t = Ok m -> model_whole m.
  Proof.
    unfold parse_model. generalize (smithy_fuel t). intros fuel E. destruct (parse_rule smithy_grammar fuel I_idl t) as [[ps|]|] eqn:R; try discriminate.
    step E x Nx. apply next_in in Nx as [N _]. eapply parse_idl_whole; [|exact E]. unfold parse_rule in R.
    destruct (run smithy_grammar fuel _ _ _) as [[[ps0 rest]|]|] eqn:Q; try discriminate. injection R as <-.
    apply run_yields, yields_honest in Q. rewrite Forall_forall in Q. exact (Q _ N).
  Qed.
End Idl.
