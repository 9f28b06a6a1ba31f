(** The JSON form does not depend on the order of maps, and says what [json_image] keeps. *)
From Coq Require Import Sorted.
From Verif.Model Require Import Json.
From Verif.Spec Require Import JsonSpec.
From Verif.Proofs Require Import BaseFacts IdentityFacts HashMapFacts ValueFacts ShapeFacts ReorderFacts ReorderEquiv JsonFacts.

Lemma sorted_perm_eq {V} (l : list (str * V)) : forall l', StronglySorted key_lt l -> StronglySorted key_lt l' -> Permutation l l' -> l = l'.
Proof.
  induction l as [|x l IH]; intros l' S S' P; [symmetry; apply Permutation_nil, P|].
  destruct l' as [|y l']; [apply Permutation_sym, Permutation_nil_cons in P; contradiction|].
  apply StronglySorted_inv in S as [S1 S2]. apply StronglySorted_inv in S' as [T1 T2].
  assert (E : x = y).
  { assert (I : In x (y :: l')) by (apply (Permutation_in _ P); left; reflexivity).
    assert (J : In y (x :: l)) by (apply (Permutation_in _ (Permutation_sym P)); left; reflexivity).
    destruct I as [->|I]; [reflexivity|]. destruct J as [->|J]; [reflexivity|].
    rewrite Forall_forall in S2, T2. specialize (S2 _ J). specialize (T2 _ I). unfold key_lt in *.
    assert (C : str_cmp (fst x) (fst x) = Lt) by (eapply str_cmp_lt_trans; eassumption). rewrite str_cmp_refl in C. discriminate. }
  subst y. f_equal. apply IH; auto. eapply Permutation_cons_inv, P.
Qed.
Lemma bm_canon {V} (a b : list (str * V)) : distinct str_eqb a -> Permutation a b -> bm_from_list a = bm_from_list b.
Proof.
  intros D P. apply sorted_perm_eq; try apply bm_from_list_sorted.
  assert (D' : distinct str_eqb b) by (apply (distinct_perm str_eqb str_eqb_equiv _ _ P D)).
  rewrite <- (bm_from_list_perm a D), P. apply bm_from_list_perm, D'.
Qed.

Lemma map_canon {K V} (keq : K -> K -> bool) (EQ : equivb keq) (wr : K * V -> result (str * json)) (R : V -> V -> Prop) (a b : list (K * V)) js :
  distinct keq a -> rmap wr a = Ok js -> reordered R a b ->
  (forall k x y j, In (k, x) a -> R x y -> wr (k, x) = Ok j -> wr (k, y) = Ok j) ->
  (forall x x' y y', In x a -> In x' a -> wr x = Ok y -> wr x' = Ok y' -> fst y = fst y' -> fst x = fst x') ->
  exists js', rmap wr b = Ok js' /\ bm_from_list js = bm_from_list js' /\ (js = [] <-> js' = []).
Proof.
  intros D E (a' & P & F) Cg Inj. apply rmap_ok in E.
  assert (Dj : distinct str_eqb js).
  { clear - D E Inj EQ. induction E as [|[k v] [s j] l js E F IH]; cbn in *; [exact I|]. destruct D as [D1 D2]. split.
    - intros s' j' I. apply str_eqb_neq. intros ->. destruct (forall2_in_r _ _ _ _ F I) as ([k' v'] & I' & E').
      assert (C := D1 k' v' I'). assert (X : k = k') by (apply (Inj (k, v) (k', v') (s, j) (s, j')); auto). subst k'. rewrite (eqv_refl _ EQ) in C. discriminate.
    - apply IH; [exact D2|]. intros x x' y y' I I'. apply Inj; right; assumption. }
  destruct (perm_forall2 _ _ _ _ P E) as (js' & Pj & E'). exists js'. split; [|split].
  - apply rmap_ok. assert (Sub : forall e, In e a' -> In e a) by (intros e; apply Permutation_in; symmetry; exact P).
    clear - F E' Cg Sub. revert js' E'. induction F as [|[k x] [k' y] a' b [Ek Rv] F IH]; intros js' E'; inversion E' as [|? j ? js0 Ej E0]; subst; [constructor|].
    cbn in Ek, Rv. subst k'. constructor; [eapply Cg; [apply Sub; left; reflexivity|exact Rv|exact Ej]|]. apply IH; [|exact E0].
    intros e I. apply Sub. right. exact I.
  - apply bm_canon; assumption.
  - split; intros ->; [apply Permutation_nil, Pj|apply Permutation_nil, Permutation_sym, Pj].
Qed.

Lemma rbind_step {A B} (r r' : result A) (f f' : A -> result B) b :
  rbind r f = Ok b -> (forall a, r = Ok a -> exists a', r' = Ok a' /\ (f a = Ok b -> f' a' = Ok b)) -> rbind r' f' = Ok b.
Proof. intros E I. apply rbind_ok in E as (a & Ea & Eb). destruct (I a Ea) as (a' & -> & X). cbn. auto. Qed.
Lemma rbind_cong {A B} (r r' : result A) (f f' : A -> result B) b :
  (forall a, r = Ok a -> r' = Ok a) -> (forall a, f a = Ok b -> f' a = Ok b) -> rbind r f = Ok b -> rbind r' f' = Ok b.
Proof. intros I J E. apply rbind_ok in E as (a & Ea & Eb). rewrite (I a Ea). cbn. auto. Qed.

Lemma rmap_ext {A B} (f g : A -> result B) l : (forall x, f x = g x) -> rmap f l = rmap g l.
Proof. intros X. induction l as [|x l IH]; cbn; [reflexivity|]. rewrite X, IH. reflexivity. Qed.
Lemma entry_fst {A} (r : result A) (k : str) (y : str * A) : (j <- r ;; Ok (k, j)) = Ok y -> fst y = k.
Proof. intros E. apply rbind_ok in E as (j & _ & [= <-]). reflexivity. Qed.
Lemma value_canon v : forall w j, value_ok v -> reorder_value v w -> write_value v = Ok j -> write_value w = Ok j.
Proof.
  induction v as [l IH|l IH| | | |] using value_ind'; intros w j O R E; inversion R as [? r F E1 E2|? l' r P F E1 E2|? E1 E2]; subst; try exact E.
  - cbn [write_value] in *. apply rbind_ok in E as (js & E & [= <-]). assert (X : rmap write_value r = Ok js); [|rewrite X; reflexivity].
    apply rmap_ok. apply rmap_ok in E. inversion O as [? OL| | | | |]; subst. clear R O. revert js E.
    induction F as [|x y l r Rv F IHF]; intros js E; inversion E as [|? jx ? js0 Ej E0]; subst; [constructor|]. inversion IH; inversion OL; subst. constructor; eauto.
  - cbn [write_value] in *. apply rbind_ok in E as (js & E & [= <-]). inversion O as [|? D OL| | | |]; subst.
    destruct (map_canon str_eqb str_eqb_equiv (fun kv => j <- write_value (snd kv) ;; Ok (fst kv, j)) reorder_value l r js D E) as (js' & E' & B & _).
    + exists l'. auto.
    + intros k x y jj I Rv. cbn [fst snd]. apply rbind_cong; [|auto]. intros a. rewrite Forall_forall in IH, OL. apply (IH _ I); [apply (OL _ I)|exact Rv].
    + intros x x' y y' _ _ X X' Y. apply entry_fst in X, X'. congruence.
    + rewrite E'. cbn. rewrite B. reflexivity.
Qed.

Section WithHasher.
  Context `{Hasher}.

  Lemma traits_canon a b : traits_ok a -> Forall (fun t => valid_id (fst t)) a -> reorder_traits a b ->
    forall j, traits_field a = Ok j -> traits_field b = Ok j.
  Proof.
    intros [D O] V R j E. unfold traits_field in *.
    destruct a as [|t0 a0].
    { destruct R as (a' & P & F). apply Permutation_nil in P. subst a'. inversion F; subst. exact E. }
    set (a := t0 :: a0) in *.
    destruct b as [|u0 b0].
    { exfalso. destruct R as (a' & P & F). inversion F; subst. symmetry in P. apply Permutation_nil in P. discriminate. }
    set (b := u0 :: b0) in *. revert E. apply rbind_cong; [|auto]. intros w. unfold write_traits. intros E. apply rbind_ok in E as (js & E & [= <-]).
    match type of E with rmap ?wr _ = _ => destruct (map_canon sid_key_eqb sid_key_equiv wr reorder_trait_value a b js D E R) as (js' & E' & B & _) end.
    - intros k x y jj I Rv. cbn [fst snd]. apply rbind_cong; [|auto]. intros z. rewrite Forall_forall in O. specialize (O _ I). cbn in O.
      destruct x as [x|], y as [y|]; cbn in Rv; try contradiction; auto. apply value_canon; [apply O|exact Rv].
    - intros x x' y y' Ix Ix' X X' Y. apply entry_fst in X, X'. rewrite Forall_forall in V. rewrite X, X', !sid_display_text in Y.
      apply id_text_inj; auto.
    - rewrite E'. cbn. rewrite B. reflexivity.
  Qed.
  Lemma writable_valid ts : traits_writable ts -> Forall (fun t => valid_id (fst t)) ts.
  Proof. apply Forall_impl. intros t [V _]. exact V. Qed.
  Lemma member_canon a b : traits_ok (ms_traits a) -> member_writable a -> reorder_member a b ->
    forall j, write_member a = Ok j -> write_member b = Ok j.
  Proof.
    intros O [V W] (E1 & E2 & R) j. unfold write_member. rewrite E2. apply rbind_cong; [|auto]. apply traits_canon; auto. apply writable_valid, W.
  Qed.
  Lemma members_canon a b : distinct ident_key_eqb a ->
    Forall (fun e => fst e = ms_id (snd e) /\ is_identifier (fst e) /\ member_writable (snd e)) a ->
    Forall (fun mb => traits_ok (ms_traits mb)) (map snd a) ->
    reordered reorder_member a b -> forall j, members_field a = Ok j -> members_field b = Ok j.
  Proof.
    intros D W O R j E. unfold members_field in *. destruct a as [|t0 a0].
    { destruct R as (a' & P & F). apply Permutation_nil in P. subst a'. inversion F; subst. exact E. }
    set (a := t0 :: a0) in *. destruct b as [|u0 b0].
    { exfalso. destruct R as (a' & P & F). inversion F; subst. symmetry in P. apply Permutation_nil in P. discriminate. }
    set (b := u0 :: b0) in *. revert E. apply rbind_cong; [|auto]. intros w. unfold write_members. intros E. apply rbind_ok in E as (js & E & [= <-]).
    rewrite Forall_forall in W, O.
    match type of E with rmap ?wr _ = _ => destruct (map_canon ident_key_eqb ident_key_equiv wr reorder_member a b js D E R) as (js' & E' & B & _) end.
    - intros k x y jj I Rv. cbn [fst snd]. destruct (W _ I) as (_ & _ & W'). cbn in W'.
      replace (ms_id y) with (ms_id x) by apply Rv. apply rbind_cong; [|auto]. intros z. apply member_canon; auto.
      apply O. apply in_map_iff. exists (k, x). auto.
    - intros x x' y y' Ix Ix' X X' Y. apply entry_fst in X, X'. rewrite (proj1 (W _ Ix)), (proj1 (W _ Ix')). congruence.
    - rewrite E'. cbn. rewrite B. reflexivity.
  Qed.
  Lemma renames_canon a b : distinct sid_key_eqb a -> Forall (fun e => valid_id (fst e) /\ is_identifier (snd e)) a ->
    Permutation a b -> renames_field a = renames_field b.
  Proof.
    intros D W P. unfold renames_field. destruct a as [|t0 a0]; [apply Permutation_nil in P; subst; reflexivity|].
    set (a := t0 :: a0) in *. destruct b as [|u0 b0]; [symmetry in P; apply Permutation_nil in P; discriminate|]. set (b := u0 :: b0) in *.
    do 3 f_equal. apply bm_canon; [|apply Permutation_map, P]. rewrite Forall_forall in W. clear - D W. induction a as [|[k v] a IH]; cbn in *; [exact I|].
    destruct D as [D1 D2]. split; [|apply IH; auto]. intros k' v' I. apply in_map_iff in I as ([i n] & [= <- <-] & I). apply str_eqb_neq. intros E.
    cbn in E. rewrite !sid_display_text in E. apply id_text_inj in E; [|apply (W (i, n)); auto|apply (W (k, v)); auto]. subst i.
    specialize (D1 _ _ I). rewrite (eqv_refl _ sid_key_equiv) in D1. discriminate.
  Qed.
  Lemma identifiers_canon a b : distinct ident_key_eqb a -> Permutation a b -> identifiers_field a = identifiers_field b.
  Proof.
    intros D P. unfold identifiers_field. destruct a as [|t0 a0]; [apply Permutation_nil in P; subst; reflexivity|].
    set (a := t0 :: a0) in *. destruct b as [|u0 b0]; [symmetry in P; apply Permutation_nil in P; discriminate|]. set (b := u0 :: b0) in *.
    do 3 f_equal. apply bm_canon; [|apply Permutation_map, P]. clear - D. induction a as [|[k v] a IH]; cbn in *; [exact I|].
    destruct D as [D1 D2]. split; [|apply IH; auto]. intros k' v' I. apply in_map_iff in I as ([i n] & [= <- <-] & I). apply str_eqb_neq. intros ->.
    specialize (D1 _ _ I). rewrite (eqv_refl _ ident_key_equiv) in D1. discriminate.
  Qed.
  Lemma body_canon a b : body_ok a -> body_writable a -> Forall (fun mb => traits_ok (ms_traits mb)) (members_of a) ->
    reorder_body a b -> forall j, write_body a = Ok j -> write_body b = Ok j.
  Proof.
    intros O W T R j. destruct R as [x y R|x y R|k v k' v' R1 R2|x y R|x y R|x y R|x y R|x]; cbn [body_ok body_writable members_of write_body] in *.
    - inversion T; subst. destruct W. apply rbind_cong; [|auto]. intros z. apply member_canon; auto.
    - inversion T; subst. destruct W. apply rbind_cong; [|auto]. intros z. apply member_canon; auto.
    - inversion T as [|? ? T1 T']; subst. inversion T' as [|? ? T2 _]; subst. destruct W.
      apply rbind_cong; [intros z; apply member_canon; auto|]. intros z. apply rbind_cong; [|auto]. intros z'. apply member_canon; auto.
    - apply rbind_cong; [|auto]. intros z. apply members_canon; auto.
    - apply rbind_cong; [|auto]. intros z. apply members_canon; auto.
    - destruct R as (E1 & E2 & E3 & P). destruct W as (_ & _ & _ & W). rewrite E1, E2, E3, (renames_canon _ _ O W P). auto.
    - destruct R as (P & E1 & E2 & E3 & E4 & E5 & E6 & E7 & E8 & E9). rewrite (identifiers_canon _ _ O P), E1, E2, E3, E4, E5, E6, E7, E8, E9. auto.
    - auto.
  Qed.
  Lemma shape_canon a b : shape_ok a -> shape_writable a -> reorder_shape a b -> forall j, write_shape a = Ok j -> write_shape b = Ok j.
  Proof.
    intros [O1 O2] (V & W1 & W2 & T) (_ & R1 & R2) j. unfold write_shape. apply rbind_cong.
    - intros z. apply traits_canon; auto. apply writable_valid, W1.
    - intros z. apply rbind_cong; [|auto]. intros z'. apply body_canon; auto.
  Qed.
  Lemma metadata_canon a b : distinct str_eqb a -> Forall (fun e => value_ok (snd e)) a -> reordered reorder_value a b ->
    forall j, write_metadata a = Ok j -> write_metadata b = Ok j.
  Proof.
    intros D O R j E. unfold write_metadata in *. destruct a as [|t0 a0].
    { destruct R as (a' & P & F). apply Permutation_nil in P. subst a'. inversion F; subst. exact E. }
    set (a := t0 :: a0) in *. destruct b as [|u0 b0].
    { exfalso. destruct R as (a' & P & F). inversion F; subst. symmetry in P. apply Permutation_nil in P. discriminate. }
    set (b := u0 :: b0) in *. apply rbind_ok in E as (js & E & [= <-]). rewrite Forall_forall in O.
    match type of E with rmap ?wr _ = _ => destruct (map_canon str_eqb str_eqb_equiv wr reorder_value a b js D E R) as (js' & E' & B & _) end.
    - intros k x y jj I Rv. cbn [fst snd]. apply rbind_cong; [|auto]. intros z. apply value_canon; [apply (O _ I)|exact Rv].
    - intros x x' y y' _ _ X X' Y. apply entry_fst in X, X'. congruence.
    - rewrite E'. cbn. rewrite B. reflexivity.
  Qed.
  Lemma model_canon a b : model_writable a -> reorder_model a b -> forall j, model_to_json a = Ok j -> model_to_json b = Ok j.
  Proof.
    intros (((K & D & DM) & O & OM) & FM & W) (EV & RM & RS) j. unfold model_to_json. rewrite EV.
    apply rbind_cong; [intros z; apply metadata_canon; auto|]. intros z. apply rbind_cong; [|auto]. intros w.
    unfold write_shapes, shapes, hm_values. rewrite !rmap_map. intros E. apply rbind_ok in E as (js & E & [= <-]). rewrite Forall_forall in O, W.
    match type of E with rmap ?wr _ = _ => destruct (map_canon sid_key_eqb sid_key_equiv wr reorder_shape _ _ js D E RS) as (js' & E' & B & _) end.
    - intros k x y jj I Rv. cbn [fst snd]. replace (ts_id y) with (ts_id x) by apply Rv. apply rbind_cong; [|auto]. intros z'.
      apply shape_canon; [apply (O _ I)|apply (W _ I)|exact Rv].
    - intros [k s] [k' s'] y y' I I' X X' Y. apply entry_fst in X, X'. cbn [fst snd] in *. rewrite X, X', !sid_display_text in Y.
      rewrite (proj1 (K _ _ I)), (proj1 (K _ _ I')). apply id_text_inj; [apply (W _ I)|apply (W _ I')|exact Y].
    - rewrite E'. cbn. rewrite B. reflexivity.
  Qed.

  (** ** The image is written as the model *)
  Lemma json_traits_written ts : traits_field (json_traits ts) = traits_field ts.
  Proof.
    unfold traits_field. destruct ts as [|t ts]; [reflexivity|]. set (l := t :: ts). change (json_traits (t :: ts)) with (json_traits l).
    assert (X : write_traits (json_traits l) = write_traits l).
    { unfold write_traits, json_traits. rewrite rmap_map. f_equal. apply rmap_ext. intros [i [v|]]; reflexivity. }
    destruct (json_traits l) eqn:E; [discriminate|]. rewrite X. reflexivity.
  Qed.
  Lemma json_member_written m : write_member (json_member m) = write_member m /\ write_member (json_map_member m) = write_member m.
  Proof. unfold write_member. cbn. rewrite json_traits_written. auto. Qed.
  Lemma json_members_written ms : members_field (map (fun e => (fst e, json_member (snd e))) ms) = members_field ms.
  Proof.
    unfold members_field. destruct ms as [|e0 l0]; [reflexivity|]. cbn [map]. change ((fst e0, json_member (snd e0)) :: map (fun e : str * member_shape => (fst e, json_member (snd e))) l0)
      with (map (fun e : str * member_shape => (fst e, json_member (snd e))) (e0 :: l0)). set (l := e0 :: l0).
    f_equal. unfold write_members. rewrite rmap_map. f_equal. apply rmap_ext. intros [k m]. cbn [fst snd]. rewrite (proj1 (json_member_written m)). reflexivity.
  Qed.
  Lemma json_body_written b : write_body (json_body b) = write_body b.
  Proof.
    destruct b; cbn [json_body write_body]; rewrite ?json_members_written, ?(proj1 (json_member_written _)), ?(proj2 (json_member_written _)); reflexivity.
  Qed.
  Lemma json_shape_written s : write_shape (json_shape s) = write_shape s.
  Proof. unfold write_shape. cbn [json_shape ts_traits ts_body]. rewrite json_traits_written, json_body_written. reflexivity. Qed.
  Lemma json_image_written m : model_to_json (json_image m) = model_to_json m.
  Proof.
    assert (X : write_shapes (json_image m) = write_shapes m).
    { unfold write_shapes, shapes, hm_values, json_image. cbn [m_shapes]. rewrite !rmap_map. f_equal. apply rmap_ext. intros [k s]. cbn [fst snd].
      rewrite json_shape_written. reflexivity. }
    unfold model_to_json. rewrite X. reflexivity.
  Qed.

  Lemma json_traits_ok ts : traits_ok ts -> traits_writable ts -> traits_ok (json_traits ts) /\ traits_writable (json_traits ts).
  Proof.
    intros O W. split; [apply json_traits_clean; assumption|]. unfold traits_writable, json_traits. apply Forall_map. eapply Forall_impl; [|exact W].
    intros [i [v|]] [V F]; cbn in *; split; auto. constructor. constructor.
  Qed.
  Lemma image_writable m : model_writable m -> model_writable (json_image m).
  Proof.
    intros W. pose proof (json_image_clean m W) as C. destruct W as (((K & D & DM) & O & OM) & FM & W).
    split; [split; [split; [|split]|split]|split]; cbn [json_image m_metadata m_shapes]; auto.
    - intros k s I. apply in_map_iff in I as ([k' s'] & [= <- <-] & I). cbn. destruct (K _ _ I) as [E1 E2]. split; [exact E1|].
      intros N. specialize (E2 N). rewrite E2. reflexivity.
    - eapply distinct_keys; [|exact D]. clear. induction (m_shapes m); constructor; auto.
    - apply Forall_map, Forall_forall. intros [k s] I. cbn. rewrite Forall_forall in O, W. destruct (O _ I) as [O1 O2]. destruct (W _ I) as (V & W1 & W2 & T).
      cbn in *. split; [apply json_traits_ok; auto|]. cbn. destruct (ts_body s) as [x|x|x|x y|x|x|x|x|x|]; cbn in *; auto; (eapply distinct_keys; [|exact O2]); clear; induction x; constructor; auto.
    - apply Forall_map, Forall_forall. intros [k s] I. cbn. rewrite Forall_forall in O, W. destruct (O _ I) as [O1 O2]. destruct (W _ I) as (V & W1 & W2 & T).
      cbn in *. split; [exact V|]. split; [apply json_traits_ok; auto|].
      assert (MW : forall mb, In mb (members_of (ts_body s)) -> member_writable mb -> traits_ok (json_traits (ms_traits mb)) /\ traits_writable (json_traits (ms_traits mb))).
      { intros mb Im [_ Wm]. rewrite Forall_forall in T. apply json_traits_ok; auto. }
      assert (MT : forall mb, In mb (members_of (ts_body s)) -> member_writable mb -> member_writable (json_member mb) /\ member_writable (json_map_member mb)).
      { intros mb Im Wm. destruct (MW mb Im Wm) as [_ Q]. split; (split; [apply Wm|exact Q]). }
      destruct (ts_body s) as [x|x|x|a b|x|x|x|x|x|]; cbn in *; auto.
      + destruct W2 as [E W2]. split; [split; [exact E|apply MT; auto]|]. constructor; [apply MW; auto|constructor].
      + destruct W2 as [E W2]. split; [split; [exact E|apply MT; auto]|]. constructor; [apply MW; auto|constructor].
      + destruct W2 as [Wa Wb]. split; [split; apply MT; auto|]. constructor; [apply MW; auto|constructor; [apply MW; auto|constructor]].
      + rewrite Forall_forall in W2. split; [apply Forall_map, Forall_forall|rewrite map_map; apply Forall_map, Forall_forall]; intros [n mb] Im; cbn;
          destruct (W2 _ Im) as (E1 & E2 & E3); cbn in *; (assert (J : In mb (map snd x)) by (apply in_map_iff; exists (n, mb); auto));
          [split; [exact E1|]; split; [exact E2|]; apply MT; auto|apply MW; auto].
      + rewrite Forall_forall in W2. split; [apply Forall_map, Forall_forall|rewrite map_map; apply Forall_map, Forall_forall]; intros [n mb] Im; cbn;
          destruct (W2 _ Im) as (E1 & E2 & E3); cbn in *; (assert (J : In mb (map snd x)) by (apply in_map_iff; exists (n, mb); auto));
          [split; [exact E1|]; split; [exact E2|]; apply MT; auto|apply MW; auto].
  Qed.
  Lemma json_image_image m : json_image (json_image m) = json_image m.
  Proof.
    unfold json_image. cbn. f_equal. rewrite map_map. apply map_ext. intros [k s]. cbn. f_equal. unfold json_shape. cbn.
    assert (X : forall ts, json_traits (json_traits ts) = json_traits ts).
    { intros ts. unfold json_traits. rewrite map_map. apply map_ext. intros [i [v|]]; reflexivity. }
    f_equal; [apply X|]. destruct (ts_body s); cbn; unfold json_member, json_map_member; cbn; rewrite ?X, ?map_map; try reflexivity;
      f_equal; apply map_ext; intros [n mb]; cbn; rewrite X; reflexivity.
  Qed.
End WithHasher.
