(** Writing in the Smithy IDL after other trips: models with the same imports and own shapes up to order. *)
From Verif.Model Require Import SemModel.
From Verif.Spec Require Import ModelSpec ReorderSpec SmithySpec.
From Verif.Spec Require JsonSpec.
From Verif.Proofs Require Import BaseFacts IdentityFacts HashMapFacts ValueFacts ShapeFacts ReorderFacts ReorderEquiv.

Lemma reordered_forall {K V} (R : V -> V -> Prop) (Q : K * V -> Prop) a b :
  reordered R a b -> (forall k x y, In (k, x) a -> R x y -> Q (k, y)) -> Forall Q b.
Proof.
  intros (a' & P & F) I. apply Forall_forall. intros [k y] In_b. destruct (forall2_in_r _ _ _ _ F In_b) as ([k' x] & In_a & E & Rxy). cbn in E, Rxy. subst k'.
  apply (I k x y); [|exact Rxy]. exact (Permutation_in _ (Permutation_sym P) In_a).
Qed.

Section Stable.
  Variables (f64_str : Z -> str) (debug_str : str -> str) (f64_parse : str -> Z).
  Context `{Hasher}.
  Variable ns : str.
  Local Notation value_writable := (value_writable f64_str debug_str f64_parse).
  Local Notation model_writable := (model_writable f64_str debug_str f64_parse ns).
  Local Notation own_writable := (own_writable f64_str debug_str f64_parse ns).
  Local Notation trait_writable := (trait_writable f64_str debug_str f64_parse ns).
  Local Notation traits_writable := (traits_writable f64_str debug_str f64_parse ns).
  Local Notation members_writable := (members_writable f64_str debug_str f64_parse ns).
  Local Notation body_writable := (body_writable f64_str debug_str f64_parse ns).

  (** ** Only the imports and the own ids of the model matter *)
  Section Ext.
    Variables m m' : model.
    Hypothesis EI : forall id, imports ns m id <-> imports ns m' id.
    Hypothesis EO : forall id, owns ns m id <-> owns ns m' id.
    Lemma not_imported_ext n : not_imported ns m n -> not_imported ns m' n.
    Proof. intros N i I. apply N, EI, I. Qed.
    Lemma not_owned_ext n : not_owned ns m n -> not_owned ns m' n.
    Proof. intros N i I. apply N, EO, I. Qed.
    Lemma found_ext t id : found ns m t id -> found ns m' t id.
    Proof.
      intros [i A B|i A B|n A B C].
      - apply found_import; [apply EI, A|]. intros j J. apply B, EI, J.
      - apply found_own; [apply EO, A|apply not_imported_ext, B].
      - apply found_prelude; [exact A|apply not_imported_ext, B|apply not_owned_ext, C].
    Qed.
    Lemma local_ext id : local ns m id -> local ns m' id.
    Proof. intros [A B]. split; [exact A|apply found_ext, B]. Qed.
    Lemma local_value_ext id : local_value ns m id -> local_value ns m' id.
    Proof. intros [A B]. split; [apply local_ext, A|exact B]. Qed.
    Lemma opt_local_ext o : opt_local_value ns m o -> opt_local_value ns m' o.
    Proof. destruct o; cbn; [apply local_value_ext|auto]. Qed.
    Lemma traits_ext ts : traits_writable m ts -> traits_writable m' ts.
    Proof.
      intros [D F]. split; [exact D|]. eapply Forall_impl; [|exact F]. intros t [[(A & B & C)|A] V]; (split; [|exact V]).
      - left. auto using found_ext.
      - right. exact A.
    Qed.
    Lemma members_ext ms : members_writable m ms -> members_writable m' ms.
    Proof.
      intros [D F]. split; [exact D|]. eapply Forall_impl; [|exact F]. intros e (A & B & C). split; [exact A|]. split; [apply traits_ext, B|apply local_ext, C].
    Qed.
    Lemma locals_ext l : Forall (local_value ns m) l -> Forall (local_value ns m') l.
    Proof. apply Forall_impl, local_value_ext. Qed.
    Lemma body_ext k : body_writable m k -> body_writable m' k.
    Proof.
      destruct k as [s|x|x|k v|ms|ms|sv|o|r|]; cbn [SmithySpec.body_writable]; auto using members_ext.
      - intros [A B]. auto using local_ext.
      - intros (A & B & C & D). auto using locals_ext.
      - intros (A & B & C). auto using locals_ext, opt_local_ext.
      - intros (A & B & C & D). split; [exact A|]. split; [|split].
        + eapply Forall_impl; [|exact B]. intros e [X Y]. auto using local_value_ext.
        + eapply Forall_impl; [|exact C]. intros e. apply opt_local_ext.
        + apply locals_ext, D.
    Qed.
    Lemma own_ext s : own_writable m s -> own_writable m' s.
    Proof.
      intros ((n & A & B & C) & T & W). split; [exists n; auto using not_imported_ext|]. auto using traits_ext, body_ext.
    Qed.
  End Ext.

  (** ** Values, traits and members in another order *)
  Lemma value_writable_reorder v : forall w, value_writable v -> reorder_value v w -> value_writable w.
  Proof.
    induction v as [l IH|l IH| | | |] using value_ind'; intros w W R; inversion R as [? r F E1 E2|? l' r P F E1 E2|? E1 E2]; subst; try exact W.
    - inversion W as [? Wl| | | | |]; subst. apply vw_array. clear R W. induction F as [|x y l r Rv F IHF]; [constructor|].
      inversion IH; subst. inversion Wl; subst. constructor; auto.
    - inversion W as [|? D Wl| | | |]; subst. assert (RO : reordered reorder_value l r) by (exists l'; auto). apply vw_object.
      + exact (reordered_distinct str_eqb str_eqb_equiv _ _ _ D RO).
      + eapply reordered_forall; [exact RO|]. intros k x y I Rv. rewrite Forall_forall in Wl, IH. destruct (Wl _ I) as [A B]. split; [exact A|].
        exact (IH _ I _ B Rv).
  Qed.
  Lemma traits_writable_reorder m a b : traits_writable m a -> reorder_traits a b -> traits_writable m b.
  Proof.
    intros [D F] R. split; [exact (reordered_distinct sid_key_eqb sid_key_equiv _ _ _ D R)|]. eapply reordered_forall; [exact R|].
    intros k x y I Rv. rewrite Forall_forall in F. destruct (F _ I) as [A B]. split; [exact A|]. cbn [fst snd] in *.
    destruct x as [x|], y as [y|]; cbn in Rv; try contradiction; [|exact Logic.I]. exact (value_writable_reorder x y B Rv).
  Qed.
  Lemma by_name_reordered (f : member_shape -> member_shape) (R S : member_shape -> member_shape -> Prop) a b :
    reordered R a b -> (forall x y, R x y -> ms_id x = ms_id y /\ S (f x) (f y)) ->
    reordered S (map (fun e : str * member_shape => (ms_id (snd e), f (snd e))) a) (map (fun e => (ms_id (snd e), f (snd e))) b).
  Proof.
    intros (a' & P & F) I. exists (map (fun e => (ms_id (snd e), f (snd e))) a'). split; [apply Permutation_map, P|].
    clear P. induction F as [|x y a' b [E Rv] F IH]; [constructor|]. cbn [map]. constructor; [|exact IH]. cbn [fst snd]. apply I, Rv.
  Qed.
  Lemma members_writable_reorder m a b : members_writable m a -> reordered reorder_member a b -> members_writable m b.
  Proof.
    intros [D F] R. split.
    - refine (reordered_distinct ident_key_eqb ident_key_equiv _ _ _ D (by_name_reordered (fun x => x) _ (fun _ _ => True) a b R _)).
      intros x y (A & _). auto.
    - eapply reordered_forall; [exact R|]. intros k x y I (A & B & C). rewrite Forall_forall in F. destruct (F _ I) as (U & V & W). cbn [fst snd] in *.
      rewrite <- A, <- B. split; [exact U|]. split; [|exact W]. exact (traits_writable_reorder m _ _ V C).
  Qed.
  Lemma body_writable_reorder m a b : body_writable m a -> reorder_body a b -> body_writable m b.
  Proof.
    intros W R. destruct R as [a b (A & B & C)|a b (A & B & C)|k v k' v' (A & B & C) (A' & B' & C')|a b R|a b R|a b (A & B & C & D)|a b R|b]; cbn [SmithySpec.body_writable] in *.
    1-2: rewrite <- B; exact W.
    - rewrite <- B, <- B'. exact W.
    - exact (members_writable_reorder m _ _ W R).
    - exact (members_writable_reorder m _ _ W R).
    - rewrite <- A, <- B, <- C. exact W.
    - destruct R as (P & E1 & E2 & E3 & E4 & E5 & E6 & E7 & E8 & E9). rewrite <- E1, <- E2, <- E3, <- E4, <- E5, <- E6, <- E7, <- E8, <- E9.
      destruct W as (W1 & W2 & W3 & W4). split; [exact (distinct_perm ident_key_eqb ident_key_equiv _ _ P W1)|]. split; [|auto].
      rewrite Forall_forall in *. intros e I. apply W2. exact (Permutation_in _ (Permutation_sym P) I).
    - exact W.
  Qed.
  Lemma own_writable_reorder m a b : own_writable m a -> reorder_shape a b -> own_writable m b.
  Proof.
    intros ((n & A & B & C) & T & W) (E & RT & RB). split; [exists n; split; [congruence|auto]|].
    split; [exact (traits_writable_reorder m _ _ T RT)|exact (body_writable_reorder m _ _ W RB)].
  Qed.

  (** ** What comes back, in another order *)
  Lemma traits_back_reorder a b : reorder_traits a b -> reorder_traits (map trait_back a) (map trait_back b).
  Proof.
    intros (a' & P & F). exists (map trait_back a'). split; [apply Permutation_map, P|].
    clear P. induction F as [|x y a' b [E Rv] F IH]; [constructor|]. cbn [map]. constructor; [|exact IH]. unfold trait_back. cbn [fst snd]. split; [exact E|].
    destruct (snd x), (snd y); cbn in *; try contradiction; [exact Rv|apply rv_same].
  Qed.
  Lemma members_back_reorder a b : reordered reorder_member a b ->
    reordered reorder_member (map (fun e : str * member_shape => (ms_id (snd e), member_back (snd e))) a) (map (fun e => (ms_id (snd e), member_back (snd e))) b).
  Proof.
    intros R. eapply by_name_reordered; [exact R|]. intros x y (A & B & C). split; [exact A|]. split; [exact A|]. split; [exact B|].
    apply traits_back_reorder, C.
  Qed.
  Lemma body_back_reorder a b : reorder_body a b -> reorder_body (body_back a) (body_back b).
  Proof.
    intros R. destruct R as [a b (A & B & C)|a b (A & B & C)|k v k' v' (A & B & C) (A' & B' & C')|a b R|a b R|a b (A & B & C & D)|a b R|b]; cbn [body_back].
    1-3: unfold plain_member; rewrite ?B, ?B'; apply rb_same.
    - apply rb_structure, members_back_reorder, R.
    - apply rb_union, members_back_reorder, R.
    - rewrite A, B, C. apply rb_same.
    - apply rb_resource, R.
    - apply rb_same.
  Qed.
  Lemma shape_back_reorder a b : reorder_shape a b -> reorder_shape (shape_back a) (shape_back b).
  Proof. intros (E & T & B). split; [exact E|]. split; [apply traits_back_reorder, T|apply body_back_reorder, B]. Qed.

  Lemma traits_back_back ts : map trait_back (map trait_back ts) = map trait_back ts.
  Proof. rewrite map_map. apply map_ext. intros [i [v|]]; reflexivity. Qed.
  Lemma shape_back_back s : shape_back (shape_back s) = shape_back s.
  Proof.
    unfold shape_back. cbn [ts_id ts_traits ts_body]. rewrite traits_back_back. f_equal.
    destruct (ts_body s) as [k|x|x|k v|ms|ms|sv|o|r|]; cbn [body_back]; try reflexivity; f_equal; rewrite map_map; apply map_ext;
      intros [k x]; cbn [snd]; unfold member_back; cbn [ms_id ms_traits ms_target]; rewrite traits_back_back; reflexivity.
  Qed.
  Lemma json_traits_eq ts : map trait_back (JsonSpec.json_traits ts) = map trait_back ts.
  Proof. exact (traits_back_back ts). Qed.
  Lemma shape_back_json s : shape_back (JsonSpec.json_shape s) = shape_back s.
  Proof.
    unfold shape_back, JsonSpec.json_shape. cbn [ts_id ts_traits ts_body]. rewrite json_traits_eq. f_equal.
    destruct (ts_body s) as [k|x|x|k v|ms|ms|sv|o|r|]; cbn [body_back JsonSpec.json_body]; try reflexivity; f_equal; rewrite map_map; apply map_ext;
      intros [k x]; cbn [snd]; unfold member_back, JsonSpec.json_member; cbn [ms_id ms_traits ms_target]; rewrite json_traits_eq; reflexivity.
  Qed.

  (** ** Shapes for which the same is written, up to order *)
  Definition alike (a b : shape) : Prop :=
    ts_id a = ts_id b /\ is_import a = is_import b /\ is_own ns a = is_own ns b
    /\ (forall m, own_writable m a -> own_writable m b) /\ reorder_shape (shape_back a) (shape_back b).
  Lemma reorder_nil {K V} (R : V -> V -> Prop) (a b : list (K * V)) : reordered R a b -> (a = [] <-> b = []).
  Proof.
    intros (a' & P & F). split.
    - intros ->. apply Permutation_nil in P. subst. inversion F. reflexivity.
    - intros ->. inversion F; subst. apply Permutation_sym, Permutation_nil in P. exact P.
  Qed.
  Lemma alike_reorder a b : reorder_shape a b -> alike a b.
  Proof.
    intros R. pose proof R as (E & T & B). split; [exact E|]. split; [|split; [|split]].
    - unfold is_import. apply reorder_nil in T. destruct B as [? ? _|? ? _|? ? ? ? _ _|? ? _|? ? _|? ? _|? ? _|k]; try reflexivity. destruct k; try reflexivity.
      destruct (ts_traits a), (ts_traits b); try reflexivity; destruct T as [T1 T2]; [discriminate (T1 eq_refl)|discriminate (T2 eq_refl)].
    - unfold is_own. rewrite E. destruct B; reflexivity.
    - intros m W. exact (own_writable_reorder m a b W R).
    - apply shape_back_reorder, R.
  Qed.
  Lemma traits_writable_back m ts : traits_writable m ts -> traits_writable m (map trait_back ts).
  Proof.
    intros [D F]. split.
    - eapply distinct_keys; [|exact D]. clear D F. induction ts; constructor; auto.
    - apply Forall_map. eapply Forall_impl; [|exact F]. intros [i [v|]] [A B]; (split; [exact A|]); cbn [fst snd trait_back] in *; [exact B|].
      apply vw_object; [exact I|constructor].
  Qed.
  Lemma members_writable_back m (f : str * member_shape -> str) ms :
    members_writable m ms -> members_writable m (map (fun e => (f e, member_back (snd e))) ms).
  Proof.
    intros [D F]. split.
    - rewrite map_map. cbn [snd]. eapply distinct_keys; [|exact D]. clear D F. induction ms; constructor; auto.
    - apply Forall_map. eapply Forall_impl; [|exact F]. intros [k x] (A & B & C). cbn [snd]. split; [exact A|]. split; [|exact C].
      apply traits_writable_back, B.
  Qed.
  Lemma import_back s k : (k = KUnresolved <-> ts_body s = KUnresolved) -> is_import (Shape (ts_id s) (map trait_back (ts_traits s)) k) = is_import s.
  Proof.
    intros E. unfold is_import. cbn [ts_body ts_traits]. destruct k; destruct (ts_body s); try reflexivity; destruct E as [E1 E2];
      try discriminate (E1 eq_refl); try discriminate (E2 eq_refl). destruct (ts_traits s); reflexivity.
  Qed.
  Lemma alike_back s : alike s (shape_back s).
  Proof.
    split; [reflexivity|]. split; [|split; [|split]].
    - symmetry. unfold shape_back. apply import_back. destruct (ts_body s); cbn [body_back]; split; intros X; try discriminate X; reflexivity.
    - unfold is_own, shape_back. cbn [ts_body ts_id]. destruct (ts_body s); reflexivity.
    - intros m (A & T & B). split; [exact A|]. split; [apply traits_writable_back, T|]. cbn [ts_body shape_back].
      destruct (ts_body s) as [k|x|x|k v|ms|ms|sv|o|r|]; cbn [body_back SmithySpec.body_writable] in *; auto.
      + exact (members_writable_back m _ ms B).
      + exact (members_writable_back m _ ms B).
    - rewrite shape_back_back. apply reorder_shape_refl.
  Qed.
  Lemma alike_json s : alike s (JsonSpec.json_shape s).
  Proof.
    split; [reflexivity|]. split; [|split; [|split]].
    - symmetry. unfold JsonSpec.json_shape. apply import_back. destruct (ts_body s); cbn [JsonSpec.json_body]; split; intros X; try discriminate X; reflexivity.
    - unfold is_own, JsonSpec.json_shape. cbn [ts_body ts_id]. destruct (ts_body s); reflexivity.
    - intros m (A & T & B). split; [exact A|]. split; [exact (traits_writable_back m _ T)|]. cbn [ts_body JsonSpec.json_shape].
      destruct (ts_body s) as [k|x|x|k v|ms|ms|sv|o|r|]; cbn [JsonSpec.json_body SmithySpec.body_writable] in *; auto.
      + exact (members_writable_back m fst ms B).
      + exact (members_writable_back m fst ms B).
    - rewrite shape_back_json. apply reorder_shape_refl.
  Qed.
  Lemma alike_trans a b c : alike a b -> alike b c -> alike a c.
  Proof.
    intros (A1 & A2 & A3 & A4 & A5) (B1 & B2 & B3 & B4 & B5). split; [congruence|]. split; [congruence|]. split; [congruence|]. split; [auto|].
    exact (reorder_shape_trans _ _ _ A5 B5).
  Qed.

  (** ** Models for which the same is written, up to order *)
  Definition written_alike (m m' : model) : Prop := exists w, Permutation (written ns m) w /\ Forall2 alike w (written ns m').
  Lemma filter_alike (f : shape -> bool) a b : (forall x y, alike x y -> f x = f y) -> Forall2 alike a b -> Forall2 alike (filter f a) (filter f b).
  Proof.
    intros E F. induction F as [|x y a b A F IH]; [constructor|]. cbn [filter]. rewrite <- (E x y A). destruct (f x); [constructor; assumption|exact IH].
  Qed.
  Lemma filter_perm {A} (f : A -> bool) a b : Permutation a b -> Permutation (filter f a) (filter f b).
  Proof.
    induction 1 as [|x a b P IH|x y a|a b c P1 IH1 P2 IH2]; cbn [filter]; [constructor| | |].
    - destruct (f x); [constructor|]; assumption.
    - destruct (f x), (f y); try reflexivity. apply perm_swap.
    - etransitivity; eassumption.
  Qed.
  Lemma shapes_alike m m' : reordered alike (m_shapes m) (m_shapes m') -> written_alike m m'.
  Proof.
    intros (a & P & F). exists (filter (fun s => is_import s || is_own ns s) (map snd a)). split.
    - apply filter_perm, Permutation_map, P.
    - apply filter_alike; [intros x y (A & B & C & _); congruence|]. clear P. induction F as [|x y a b [E A] F IH]; constructor; assumption.
  Qed.
  Section Alike.
    Variables m m' : model.
    Hypothesis WA : written_alike m m'.
    Lemma alike_in_r s' : In s' (written ns m') -> exists s, In s (written ns m) /\ alike s s'.
    Proof.
      destruct WA as (w & P & F). intros I. destruct (forall2_in_r _ _ _ _ F I) as (s & Is & A). exists s. split; [|exact A].
      exact (Permutation_in _ (Permutation_sym P) Is).
    Qed.
    Lemma alike_in_l s : In s (written ns m) -> exists s', In s' (written ns m') /\ alike s s'.
    Proof.
      destruct WA as (w & P & F). intros I. exact (forall2_in_l _ _ _ _ F (Permutation_in _ P I)).
    Qed.
    Lemma alike_imports id : imports ns m id <-> imports ns m' id.
    Proof.
      split; intros (s & A & B & C).
      - destruct (alike_in_l s A) as (s' & I & E1 & E2 & _). exists s'. split; [exact I|]. split; congruence.
      - destruct (alike_in_r s A) as (s' & I & E1 & E2 & _). exists s'. split; [exact I|]. split; congruence.
    Qed.
    Lemma alike_owns id : owns ns m id <-> owns ns m' id.
    Proof.
      split; intros (s & A & B & C).
      - destruct (alike_in_l s A) as (s' & I & E1 & E2 & E3 & _). exists s'. split; [exact I|]. split; congruence.
      - destruct (alike_in_r s A) as (s' & I & E1 & E2 & E3 & _). exists s'. split; [exact I|]. split; congruence.
    Qed.
    Lemma alike_writable :
      model_writable m ->
      reordered reorder_value (m_metadata m) (m_metadata m') ->
      Forall (fun s => ts_body s = KUnresolved -> same_name (sid_ns (ts_id s)) ns -> ts_traits s = []) (map snd (m_shapes m')) ->
      model_writable m'.
    Proof.
      intros (W1 & W2 & W3 & W4 & W5 & W6 & W7 & _) MD UN. split; [exact W1|]. split; [exact (reordered_distinct str_eqb str_eqb_equiv _ _ _ W2 MD)|].
      split; [|split; [|split; [|split; [|split; [|exact UN]]]]].
      - eapply reordered_forall; [exact MD|]. intros k x y I R. rewrite Forall_forall in W3. destruct (W3 _ I) as (A & B & C). cbn [fst snd] in *.
        split; [exact A|]. split; [exact (value_writable_reorder x y B R)|]. intros l ->. inversion R; subst; eapply C; reflexivity.
      - destruct WA as (w & P & F). apply (distinct_perm sid_key_eqb sid_key_equiv _ (map (fun s => (ts_id s, s)) w)) in W4; [|apply Permutation_map, P].
        eapply distinct_keys; [|exact W4]. clear - F. induction F as [|x y a b (E & _) F IH]; cbn [map]; constructor; [exact E|exact IH].
      - destruct WA as (w & P & F). apply (Permutation_NoDup (l := map (fun s => lower (sid_name (ts_id s))) (filter (is_own ns) w))).
        + apply eq_ind with (P := fun l => Permutation _ l) (x := map (fun s => lower (sid_name (ts_id s))) (filter (is_own ns) w)); [reflexivity|].
          assert (F' : Forall2 alike (filter (is_own ns) w) (filter (is_own ns) (written ns m'))) by (apply filter_alike; [intros x y (_ & _ & E & _); exact E|exact F]).
          clear - F'. induction F' as [|x y a b (E & _) F IH]; cbn [map]; [reflexivity|]. rewrite E, IH. reflexivity.
        + eapply Permutation_NoDup; [|exact W5]. apply Permutation_map, filter_perm, P.
      - apply Forall_forall. intros s I IM. destruct (alike_in_r s I) as (s0 & I0 & E1 & E2 & _). rewrite Forall_forall in W6. rewrite <- E1. apply W6; [exact I0|congruence].
      - apply Forall_forall. intros s I OW. destruct (alike_in_r s I) as (s0 & I0 & E1 & E2 & E3 & E4 & _). rewrite Forall_forall in W7.
        apply (own_ext m m' alike_imports alike_owns). apply E4, W7; [exact I0|congruence].
    Qed.
    Lemma alike_back_shapes :
      reordered reorder_shape (map (fun s => (ts_id s, shape_back s)) (written ns m)) (map (fun s => (ts_id s, shape_back s)) (written ns m')).
    Proof.
      destruct WA as (w & P & F). exists (map (fun s => (ts_id s, shape_back s)) w). split; [apply Permutation_map, P|].
      clear - F. induction F as [|x y a b (E & _ & _ & _ & R) F IH]; cbn [map]; constructor; [split; [exact E|exact R]|exact IH].
    Qed.
  End Alike.
End Stable.
