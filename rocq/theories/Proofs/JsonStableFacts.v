(** What the JSON reader returns can be written, and is its own image. *)
From Coq Require Import Sorted.
From Verif.Model Require Import Json.
From Verif.Spec Require Import JsonSpec JsonStableSpec.
From Verif.Proofs Require Import BaseFacts IdentityFacts HashMapFacts ValueFacts ShapeFacts ReorderFacts ReorderEquiv JsonFacts JsonCanonFacts.
From Verif.Proofs Require BuilderFacts.

Lemma from_list_In {K V} (keq : K -> K -> bool) (EQ : equivb keq) (l : list (K * V)) : forall acc k v,
  In (k, v) (fold_left (fun m kv => hm_insert keq (fst kv) (snd kv) m) l acc) ->
  (exists w, In (k, w) (acc ++ l)) /\ (exists k', In (k', v) (acc ++ l)).
Proof.
  induction l as [|[a b] l IH]; intros acc k v I; cbn [fold_left fst snd] in I.
  - rewrite app_nil_r. eauto.
  - apply IH in I as [(w & I1) (k' & I2)]. split.
    + apply in_app_iff in I1 as [I1|I1]; [|exists w; apply in_app_iff; right; right; exact I1].
      apply (hm_insert_In keq EQ) in I1. destruct I1 as [I1|I1]; [exists w; apply in_app_iff; left; apply I1|].
      destruct I1 as (_ & _ & [->|(v0 & I1)]); [exists b; apply in_app_iff; right; left; reflexivity|exists v0; apply in_app_iff; left; exact I1].
    + apply in_app_iff in I2 as [I2|I2]; [|exists k'; apply in_app_iff; right; right; exact I2].
      apply (hm_insert_In keq EQ) in I2. destruct I2 as [I2|I2]; [exists k'; apply in_app_iff; left; apply I2|].
      destruct I2 as (-> & _). exists a. apply in_app_iff; right; left; reflexivity.
Qed.
Lemma hm_from_list_In {K V} (keq : K -> K -> bool) (EQ : equivb keq) (l : list (K * V)) k v :
  In (k, v) (hm_from_list keq l) -> (exists w, In (k, w) l) /\ (exists k', In (k', v) l).
Proof. intros I. exact (from_list_In keq EQ l [] k v I). Qed.

Lemma wrap_i64_range n : (- 0x8000000000000000 <= n <= 0xFFFFFFFFFFFFFFFF)%Z -> i64 (wrap_i64 n).
Proof. unfold wrap_i64, i64. intros R. destruct (n >? 0x7FFFFFFFFFFFFFFF)%Z eqn:E; rewrite Z.gtb_ltb in E; [apply Z.ltb_lt in E|apply Z.ltb_ge in E]; lia. Qed.
Fixpoint json_size (j : json) : nat :=
  match j with
  | JArray l => S (list_sum (map json_size l))
  | JObject l => S (list_sum (map (fun kv => json_size (snd kv)) l))
  | _ => 1
  end.
Lemma list_sum_in n l : In n l -> n <= list_sum l.
Proof. induction l as [|x l IH]; cbn; intros []; [subst; lia|]. apply IH in H. unfold list_sum in H. lia. Qed.
Lemma read_value_good n : forall j, json_size j < n -> json_ok j -> finite_value (read_value j) /\ value_ok (read_value j).
Proof.
  induction n as [|n IH]; intros j L O; [lia|]. destruct O as [|b|z R|b F|s|l O|l S O]; cbn [read_value].
  - split; constructor.
  - split; constructor.
  - split; constructor. apply wrap_i64_range, R.
  - split; constructor. exact F.
  - split; constructor.
  - cbn [json_size] in L. rewrite Forall_forall in O. split; constructor; apply Forall_map, Forall_forall; intros x I;
      (apply IH; [|apply O, I]); assert (json_size x <= list_sum (map json_size l)) by (apply list_sum_in, in_map, I); lia.
  - cbn [json_size] in L. rewrite Forall_forall in O.
    assert (G : forall k v, In (k, v) (hm_from_list str_eqb (map (fun kv => (fst kv, read_value (snd kv))) l)) -> finite_value v /\ value_ok v).
    { intros k v I. apply (hm_from_list_In str_eqb str_eqb_equiv) in I as [_ (k' & I)]. apply in_map_iff in I as ([k0 x] & [= <- <-] & I). cbn.
      apply IH; [|apply (O _ I)]. assert (json_size x <= list_sum (map (fun kv => json_size (snd kv)) l)) by (apply list_sum_in, in_map_iff; exists (k0, x); auto). lia. }
    split; constructor.
    + apply Forall_forall. intros [k v] I. apply (G _ _ I).
    + apply BuilderFacts.from_list_distinct, str_eqb_equiv.
    + apply Forall_forall. intros [k v] I. apply (G _ _ I).
Qed.
Lemma read_value_ok j : json_ok j -> finite_value (read_value j) /\ value_ok (read_value j).
Proof. apply (read_value_good (S (json_size j))). lia. Qed.
Lemma jm_get_ok k l x : json_ok (JObject l) -> jm_get k l = Some x -> json_ok x.
Proof. intros O G. inversion O as [| | | | | |? S F]; subst. unfold jm_get in G. apply hm_get_Some_In in G as (k' & I & _). rewrite Forall_forall in F. apply (F _ I). Qed.
Lemma jget_ok k j x : json_ok j -> jget k j = Some x -> json_ok x.
Proof. intros O G. destruct j; try discriminate. eapply jm_get_ok; eassumption. Qed.
Lemma sid_from_str_valid s i : sid_from_str s = Ok i -> valid_id i.
Proof. intros E. apply sid_from_str_sound in E. apply E. Qed.
Lemma ident_from_str_valid s i : ident_from_str s = Ok i -> is_identifier i /\ i = s.
Proof. unfold ident_from_str. destruct (ident_is_valid s) eqn:E; [|discriminate]. intros [= <-]. apply ident_is_valid_spec in E. auto. Qed.

Section WithHasher.
  Context `{Hasher}.

  Lemma append_ok from : forall ts ts', append_traits ts from = (ts', Ok tt) -> Forall (fun t => sid_member (fst t) = None) from.
  Proof.
    induction from as [|[id v] from IH]; intros ts ts' E; [constructor|]. cbn [append_traits] in E.
    destruct (apply_with_value ts id v) as [ts1 r] eqn:A. destruct r as [[]| |]; try discriminate. constructor; [|eapply IH; exact E].
    unfold apply_with_value in A. destruct (sid_is_member id) eqn:M; [discriminate|]. apply sid_is_member_false, M.
  Qed.
  Definition good_traits (ts : traits) : Prop := traits_ok ts /\ traits_writable ts /\ traits_valued ts.
  Lemma read_traits_good m ts : json_ok (JObject m) -> read_traits_of m = Ok ts -> good_traits ts.
  Proof.
    intros O E. unfold read_traits_of in E. destruct (jm_get "traits" m) as [x|] eqn:G; [|injection E as <-; repeat split; constructor].
    assert (Ox := jm_get_ok _ _ _ O G). destruct x as [| | | | | |vs]; try (injection E as <-; repeat split; constructor).
    apply rbind_ok in E as (r & Er & E). unfold read_traits in Er. apply rbind_ok in Er as (l & El & [= <-]).
    set (r := hm_from_list sid_key_eqb l) in *. destruct (append_traits [] r) as [ts' [[]| |]] eqn:A; try discriminate. injection E as <-.
    assert (M := append_ok _ _ _ A). assert (D : distinct sid_key_eqb r) by (apply BuilderFacts.from_list_distinct, sid_key_equiv).
    rewrite (append_fresh r [] D M) in A. cbn in A. injection A as <-.
    inversion Ox as [| | | | | |? _ F]; subst. rewrite Forall_forall in F.
    assert (G' : forall k v, In (k, v) l -> valid_id k /\ exists w, v = Some w /\ finite_value w /\ value_ok w).
    { intros k v I. apply rmap_ok in El. destruct (forall2_in_r _ _ _ _ El I) as ([t j] & Ij & Ev). cbn [fst snd] in Ev.
      apply rbind_ok in Ev as (id & Eid & [= <- <-]). split; [eapply sid_from_str_valid, Eid|]. eexists. split; [reflexivity|]. apply read_value_ok, (F _ Ij). }
    assert (R : forall k v, In (k, v) r -> valid_id k /\ exists w, v = Some w /\ finite_value w /\ value_ok w).
    { intros k v I. apply (hm_from_list_In sid_key_eqb sid_key_equiv) in I as [(w & I1) (k' & I2)]. split; [apply (G' _ _ I1)|apply (G' _ _ I2)]. }
    split; [split; [exact D|]|split]; apply Forall_forall; intros [k v] I; destruct (R _ _ I) as (V & w & -> & Fw & Ow); cbn; auto; [|discriminate].
    split; [|exact Ow]. rewrite Forall_forall in M. apply (M _ I).
  Qed.
  Definition good_member (m : member_shape) : Prop := valid_id (ms_target m) /\ good_traits (ms_traits m).
  Lemma read_member_good j m : (forall x, j = Some x -> json_ok x) -> read_member j = Ok m -> ms_id m = lit "member" /\ good_member m.
  Proof.
    intros O E. unfold read_member in E. destruct j as [[| | | | | |ms]|]; try discriminate. specialize (O _ eq_refl).
    destruct (jm_get "target" ms) as [[| | | |t| |]|]; try discriminate. apply rbind_ok in E as (id & Ei & E). apply rbind_ok in E as (ts & Et & [= <-]).
    split; [reflexivity|]. split; [eapply sid_from_str_valid, Ei|eapply read_traits_good; eassumption].
  Qed.
  Lemma read_named_good kv m : json_ok (snd kv) -> read_named_member kv = Ok m -> ms_id m = fst kv /\ is_identifier (ms_id m) /\ good_member m.
  Proof.
    intros O E. unfold read_named_member in E. destruct kv as [k [| | | | | |ms]]; try discriminate. cbn [fst snd] in *. apply rbind_ok in E as (id & Ei & E).
    apply rbind_ok in E as (n & En & E). apply rbind_ok in E as (ts & Et & [= <-]). apply ident_from_str_valid in En as [V ->]. cbn.
    split; [reflexivity|]. split; [exact V|]. split; [|eapply read_traits_good; eassumption].
    destruct (jm_get "target" ms) as [[| | | |t| |]|]; try discriminate. eapply sid_from_str_valid, Ei.
  Qed.
  Lemma read_members_good j ms : json_ok j -> (forall vs, jget "members" j = Some (JObject vs) -> names_apart vs) -> read_members_of j = Ok ms ->
    distinct ident_key_eqb ms /\ Forall (fun e => fst e = ms_id (snd e) /\ is_identifier (fst e) /\ good_member (snd e)) ms.
  Proof.
    intros O T E. unfold read_members_of in E. destruct (jget "members" j) as [x|] eqn:G; [|injection E as <-; split; [exact I|constructor]].
    assert (Ox := jget_ok _ _ _ O G). destruct x as [| | | | | |vs]; try (injection E as <-; split; [exact I|constructor]). specialize (T _ eq_refl).
    apply rbind_ok in E as (l & El & [= <-]). inversion Ox as [| | | | | |? S F]; subst. apply sorted_distinct in S.
    assert (D : distinct ident_key_eqb (map (fun m => (ms_id m, m)) l)).
    { apply rmap_ok in El. clear Ox G O. induction El as [|[k v] m vs l Em El IH]; [exact I|]. inversion F as [|? ? Fv Fr]; subst. destruct S as [S1 S2].
      destruct (read_named_good _ _ Fv Em) as (N & _). cbn [fst] in N. cbn. split.
      - intros k' m' I'. apply in_map_iff in I' as (m2 & [= <- <-] & I'). destruct (forall2_in_r _ _ _ _ El I') as ([k2 v2] & I2 & E2).
        rewrite Forall_forall in Fr. destruct (read_named_good _ _ (Fr _ I2) E2) as (N2 & _). cbn [fst] in N2.
        destruct (ident_key_eqb (ms_id m2) (ms_id m)) eqn:Q; [|reflexivity]. exfalso. rewrite N, N2 in Q.
        assert (X : k2 = k) by (eapply T; [right; exact I2|left; reflexivity|exact Q]). specialize (S1 _ _ I2). apply str_eqb_neq in S1. congruence.
      - apply IH; auto. intros a b c d I1 I2. apply (T a b c d); right; assumption. }
    rewrite (su_with_members_distinct l D). split; [exact D|]. apply Forall_map, Forall_forall. intros m I. cbn [fst snd]. split; [reflexivity|].
    apply rmap_ok in El. destruct (forall2_in_r _ _ _ _ El I) as (kv & Ik & Ek). rewrite Forall_forall in F. apply (read_named_good _ _ (F _ Ik)) in Ek. tauto.
  Qed.
  Lemma read_target_good j i : read_target j = Ok i -> valid_id i.
  Proof.
    unfold read_target. destruct j as [[| | | | | |ms]|]; try discriminate. destruct (jm_get "target" ms) as [[| | | |t| |]|]; try discriminate. apply sid_from_str_valid.
  Qed.
  Lemma read_optional_good j i : read_optional_target j = Ok i -> opt_valid i.
  Proof.
    unfold read_optional_target. destruct j; [|intros [= <-]; exact I]. intros E. apply rbind_ok in E as (id & E & [= <-]). eapply read_target_good, E.
  Qed.
  Lemma read_list_good j l : read_target_list j = Ok l -> Forall valid_id l.
  Proof.
    unfold read_target_list. destruct j as [[| | | | |l'|]|]; try discriminate; [|intros [= <-]; constructor]. intros E. apply rmap_ok in E.
    clear - E. induction E; constructor; [eapply read_target_good; eassumption|assumption].
  Qed.
  Lemma read_renames_good j l : read_renames j = Ok l -> distinct sid_key_eqb l /\ Forall (fun e => valid_id (fst e) /\ is_identifier (snd e)) l.
  Proof.
    unfold read_renames. destruct j as [[| | | | | |ms]|]; try discriminate; [|intros [= <-]; split; [exact I|constructor]]. intros E.
    apply rbind_ok in E as (r & E & [= <-]). split; [apply BuilderFacts.from_list_distinct, sid_key_equiv|]. apply rmap_ok in E.
    assert (G : forall k v, In (k, v) r -> valid_id k /\ is_identifier v).
    { intros k v I. destruct (forall2_in_r _ _ _ _ E I) as ([t j] & _ & Ev). unfold read_rename in Ev. cbn [fst snd] in Ev. apply rbind_ok in Ev as (id & Ei & Ev).
      apply rbind_ok in Ev as (n & En & [= <- <-]). split; [eapply sid_from_str_valid, Ei|]. destruct j; try discriminate. apply ident_from_str_valid in En. apply En. }
    apply Forall_forall. intros [k v] I. apply (hm_from_list_In sid_key_eqb sid_key_equiv) in I as [(w & I1) (k' & I2)]. split; [apply (G _ _ I1)|apply (G _ _ I2)].
  Qed.
  Lemma read_identifiers_good j l : read_identifiers j = Ok l -> distinct ident_key_eqb l /\ Forall (fun e => is_identifier (fst e) /\ valid_id (snd e)) l.
  Proof.
    unfold read_identifiers. destruct j as [[| | | | | |ms]|]; try discriminate; [|intros [= <-]; split; [exact I|constructor]]. intros E.
    apply rbind_ok in E as (r & E & [= <-]). split; [apply BuilderFacts.from_list_distinct, ident_key_equiv|]. apply rmap_ok in E.
    assert (G : forall k v, In (k, v) r -> is_identifier k /\ valid_id v).
    { intros k v I. destruct (forall2_in_r _ _ _ _ E I) as ([t j] & _ & Ev). unfold read_identifier in Ev. cbn [fst snd] in Ev. apply rbind_ok in Ev as (id & Ei & Ev).
      apply rbind_ok in Ev as (n & En & [= <- <-]). split; [apply ident_from_str_valid in Ei; apply Ei|eapply read_target_good, En]. }
    apply Forall_forall. intros [k v] I. apply (hm_from_list_In ident_key_eqb ident_key_equiv) in I as [(w & I1) (k' & I2)]. split; [apply (G _ _ I1)|apply (G _ _ I2)].
  Qed.

  Definition good_body (b : shape_kind) : Prop :=
    body_ok b /\ body_writable b /\ Forall (fun mb => traits_ok (ms_traits mb)) (members_of b) /\ json_body b = b.
  Lemma good_traits_image ts : good_traits ts -> json_traits ts = ts.
  Proof. intros (_ & _ & V). apply json_traits_valued, V. Qed.
  Lemma good_member_image m : good_member m -> json_member m = m /\ member_writable m /\ traits_ok (ms_traits m).
  Proof.
    intros [V G]. split; [apply json_member_valued; apply G|]. split; [split; [exact V|apply G]|apply G].
  Qed.
  Lemma good_map_member_image m : ms_id m = lit "member" -> good_member m -> json_map_member m = m.
  Proof. intros E [V G]. unfold json_map_member. rewrite (good_traits_image _ G), <- E. destruct m; reflexivity. Qed.
  Lemma good_members ms : distinct ident_key_eqb ms -> Forall (fun e => fst e = ms_id (snd e) /\ is_identifier (fst e) /\ good_member (snd e)) ms ->
    Forall (fun e => fst e = ms_id (snd e) /\ is_identifier (fst e) /\ member_writable (snd e)) ms
    /\ Forall (fun mb => traits_ok (ms_traits mb)) (map snd ms) /\ map (fun e => (fst e, json_member (snd e))) ms = ms.
  Proof.
    intros D F. split; [|split].
    - eapply Forall_impl; [|exact F]. intros e (A & B & C). split; [exact A|]. split; [exact B|]. apply good_member_image, C.
    - apply Forall_map. eapply Forall_impl; [|exact F]. intros e (A & B & C). apply good_member_image, C.
    - clear D. induction F as [|[k m] ms (A & B & C) F IH]; [reflexivity|]. cbn [map fst snd]. rewrite IH. cbn in C. rewrite (proj1 (good_member_image _ C)). reflexivity.
  Qed.
  Lemma read_body_good j b : json_ok j -> (forall vs, jget "members" j = Some (JObject vs) -> names_apart vs) -> read_body j = Ok b -> good_body b.
  Proof.
    intros O T E. assert (OO : forall k x, jget k j = Some x -> json_ok x) by (intros k x; apply jget_ok, O).
    unfold read_body in E. destruct (jget "type" j) as [[| | | |s| |]|]; try discriminate.
    destruct (simple_from_str s) as [st|e|] eqn:ES.
    { injection E as <-. repeat split; constructor. }
    2: { exfalso. clear - ES. unfold simple_from_str in ES. repeat match type of ES with (if ?c then _ else _) = _ => destruct c end; discriminate. }
    clear ES. repeat match type of E with (if ?c then _ else _) = _ => destruct c end; try discriminate.
    - injection E as <-. repeat split; constructor.
    - apply rbind_ok in E as (m & E & [= <-]). apply read_member_good in E as [N G]; [|eauto]. destruct (good_member_image _ G) as (A & B & C).
      split; [exact I|]. split; [split; assumption|]. split; [repeat constructor; apply C|]. cbn. rewrite A. reflexivity.
    - apply rbind_ok in E as (m & E & [= <-]). apply read_member_good in E as [N G]; [|eauto]. destruct (good_member_image _ G) as (A & B & C).
      split; [exact I|]. split; [split; assumption|]. split; [repeat constructor; apply C|]. cbn. rewrite A. reflexivity.
    - apply rbind_ok in E as (k & Ek & E). apply rbind_ok in E as (v & Ev & [= <-]). apply read_member_good in Ek as [N G]; [|eauto]. apply read_member_good in Ev as [N' G']; [|eauto].
      destruct (good_member_image _ G) as (A & B & C). destruct (good_member_image _ G') as (A' & B' & C').
      split; [exact I|]. split; [split; assumption|]. split; [repeat constructor; first [apply C|apply C']|]. cbn. rewrite !good_map_member_image by assumption. reflexivity.
    - apply rbind_ok in E as (ms & E & [= <-]). destruct (read_members_good _ _ O T E) as [D F]. destruct (good_members ms D F) as (A & B & C).
      split; [exact D|]. split; [exact A|]. split; [exact B|]. cbn. rewrite C. reflexivity.
    - apply rbind_ok in E as (ms & E & [= <-]). destruct (read_members_good _ _ O T E) as [D F]. destruct (good_members ms D F) as (A & B & C).
      split; [exact D|]. split; [exact A|]. split; [exact B|]. cbn. rewrite C. reflexivity.
    - destruct (jget "version" j) as [[| | | |v| |]|]; try discriminate. apply rbind_ok in E as (sv & Es & E). apply rbind_ok in E as (ops & Eo & E).
      apply rbind_ok in E as (rs & Er & E). apply rbind_ok in E as (rn & En & [= <-]). unfold service_new in Es. destruct v as [|c v]; [discriminate|]. injection Es as <-.
      apply read_renames_good in En as [D F]. apply read_list_good in Eo, Er. split; [exact D|]. split; [|split; [constructor|reflexivity]]. cbn. repeat split; auto. discriminate.
    - apply rbind_ok in E as (i & Ei & E). apply rbind_ok in E as (o & Eo & E). apply rbind_ok in E as (es & Ee & [= <-]).
      apply read_optional_good in Ei, Eo. apply read_list_good in Ee. split; [exact I|]. split; [|split; [constructor|reflexivity]]. cbn. auto.
    - repeat match type of E with rbind _ _ = Ok _ => let x := fresh "x" in let Ex := fresh "Ex" in apply rbind_ok in E as (x & Ex & E) end. injection E as <-.
      apply read_identifiers_good in Ex as [D F].
      repeat match goal with Q : read_optional_target _ = Ok _ |- _ => apply read_optional_good in Q | Q : read_target_list _ = Ok _ |- _ => apply read_list_good in Q end.
      split; [exact D|]. split; [|split; [constructor|reflexivity]]. cbn. auto 20.
  Qed.

  Lemma read_shape_good kv s : json_ok (snd kv) -> (forall vs, jget "members" (snd kv) = Some (JObject vs) -> names_apart vs) -> read_shape kv = Ok s ->
    sid_from_str (fst kv) = Ok (ts_id s) /\ shape_ok s /\ shape_writable s /\ json_shape s = s.
  Proof.
    intros O T E. assert (EI := read_shape_id _ _ E). split; [exact EI|]. unfold read_shape in E. apply rbind_ok in E as (id & Ei & E).
    apply rbind_ok in E as (b & Eb & E). apply rbind_ok in E as (ts & Et & [= <-]). destruct (read_body_good _ _ O T Eb) as (B1 & B2 & B3 & B4).
    assert (G : good_traits ts).
    { destruct (snd kv); try (injection Et as <-; repeat split; constructor). eapply read_traits_good; eassumption. }
    split; [split; [apply G|exact B1]|]. split.
    - split; [eapply sid_from_str_valid, Ei|]. split; [apply G|]. split; assumption.
    - unfold json_shape. cbn [ts_id ts_traits ts_body]. rewrite B4, (good_traits_image _ G). reflexivity.
  Qed.
  Lemma merge_ok_members l : forall m m', merge_shapes m l = (m', Ok tt) -> forall k s, In (k, s) l -> sid_member (ts_id s) <> None -> ts_body s = KUnresolved.
  Proof.
    induction l as [|[k0 s0] l IH]; intros m m' E k s I N; [destruct I|]. cbn [merge_shapes] in E. destruct (add_shape m s0) as [m1 [[]| |]] eqn:A; try discriminate.
    destruct I as [[= <- <-]|I]; [|eapply IH; eassumption]. unfold add_shape in A. destruct (sid_is_member (ts_id s0)) eqn:M.
    - destruct (ts_body s0); try (cbn in A; discriminate). reflexivity.
    - apply sid_is_member_false in M. contradiction.
  Qed.
  Lemma read_model_writable j m : json_ok j -> document_apart j -> read_model j = Ok m -> model_writable m /\ json_image m = m.
  Proof.
    intros O [T TM] E. unfold read_model in E. destruct j as [| | | | | |vs]; try discriminate. unfold shape_entries in *. cbn [jget] in *.
    apply rbind_ok in E as (v & Ev & E).
    assert (MD : distinct str_eqb (read_metadata (jm_get "metadata" vs))
                 /\ Forall (fun e => value_ok (snd e)) (read_metadata (jm_get "metadata" vs)) /\ Forall (fun e => finite_value (snd e)) (read_metadata (jm_get "metadata" vs))).
    { unfold read_metadata. destruct (jm_get "metadata" vs) as [x|] eqn:G; [|repeat split; constructor]. assert (Ox := jm_get_ok _ _ _ O G).
      destruct x as [| | | | | |l]; try (repeat split; constructor). destruct (read_value_ok _ Ox) as [F V]. cbn [read_value] in F, V. inversion F; inversion V; subst. auto. }
    destruct MD as (D & VO & VF). rewrite merge_metadata_fill in E by exact D. cbn [model_new m_metadata app] in E.
    apply rbind_ok in E as (ss & Es & E).
    set (m1 := set_metadata (model_new v) (read_metadata (jm_get "metadata" vs))) in *.
    assert (G : Forall (fun s => shape_ok s /\ shape_writable s /\ json_shape s = s) ss /\ distinct sid_key_eqb (map (fun s => (ts_id s, s)) ss)).
    { unfold read_shapes in Es. destruct (jm_get "shapes" vs) as [x|] eqn:GS; [|injection Es as <-; split; [constructor|exact I]].
      assert (Ox := jm_get_ok _ _ _ O GS). destruct x as [| | | | | |l]; try (injection Es as <-; split; [constructor|exact I]).
      inversion Ox as [| | | | | |? S F]; subst. apply sorted_distinct in S. apply rmap_ok in Es. clear E GS Ox O. revert T TM S F.
      induction Es as [|[k x] s l ss Ex Es IH]; intros T TM S F; [split; [constructor|exact I]|]. inversion F as [|? ? Fx Fl]; subst. destruct S as [S1 S2].
      destruct IH as [IH1 IH2]; auto.
      { intros a b c d i1 i2 I1 I2. apply (T a b c d i1 i2); right; assumption. }
      { intros a b c I1. apply (TM a b c). right. exact I1. }
      destruct (read_shape_good (k, x) s Fx (fun vs G => TM k x vs (or_introl eq_refl) G) Ex) as (Q1 & Q2 & Q3 & Q4). split; [constructor; auto|]. cbn. split; [|exact IH2].
      intros k' s' I. apply in_map_iff in I as (s2 & [= <- <-] & I). destruct (forall2_in_r _ _ _ _ Es I) as ([k2 x2] & I2 & E2).
      assert (E3 := read_shape_id _ _ E2). cbn [fst] in *. destruct (sid_key_eqb (ts_id s2) (ts_id s)) eqn:Q; [|reflexivity]. exfalso.
      specialize (S1 _ _ I2). apply str_eqb_neq in S1. apply S1. apply (T k2 k x2 x (ts_id s2) (ts_id s)); [right; exact I2|left; reflexivity|exact E3|exact Q1|exact Q]. }
    destruct G as [G DS]. destruct (merge_shapes m1 (map (fun s => (ts_id s, s)) ss)) as [m' [[]| |]] eqn:M; try discriminate. injection E as <-.
    assert (MU : forall s, In s ss -> sid_member (ts_id s) <> None -> ts_body s = KUnresolved).
    { intros s I. apply (merge_ok_members _ _ _ M (ts_id s) s). apply in_map_iff. exists s. auto. }
    rewrite merge_shapes_fill in M; [|exact DS|exact MU]. injection M as <-. rewrite Forall_forall in G.
    split; [split; [split; [split; [|split]|split]|split]|]; cbn; auto.
    - intros k s I. apply in_map_iff in I as (s0 & [= <- <-] & I). split; [reflexivity|]. apply MU, I.
    - apply Forall_map, Forall_forall. intros s I. apply (G _ I).
    - apply Forall_map, Forall_forall. intros s I. apply (G _ I).
    - unfold json_image, set_shapes. cbn. f_equal. rewrite map_map. apply map_ext_in. intros s I. cbn. rewrite (proj2 (proj2 (G _ I))). reflexivity.
  Qed.
End WithHasher.
