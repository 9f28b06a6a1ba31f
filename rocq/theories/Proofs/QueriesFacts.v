(** Facts about the queries of Model/Queries.v. *)
From Verif.Model Require Import Queries.
From Verif.Spec Require Import QueriesSpec.
From Verif.Proofs Require Import BaseFacts IdentityFacts HashMapFacts ValueFacts ShapeFacts.
From Coq Require Import ZifyBool ZifyN.

(** ** Traits *)
Section Traits.
  Context `{Hasher}.

  Lemma goes_by_key a b : sid_key_eqb a b = true <-> goes_by a b.
  Proof.
    unfold sid_key_eqb, goes_by. rewrite andb_true_iff, <- sid_eqb_same.
    first [rewrite Z.eqb_eq; tauto|idtac].
  Qed.
  Lemma goes_by_key_false a b : sid_key_eqb a b = false <-> ~ goes_by a b.
  Proof. rewrite <- goes_by_key. destruct (sid_key_eqb a b); split; congruence. Qed.
  Lemma goes_by_sym a b : goes_by a b -> goes_by b a.
  Proof. rewrite <- !goes_by_key, sid_key_sym. auto. Qed.

  Lemma has_trait_carries t ts : has_trait t ts = true <-> carries ts t.
  Proof.
    unfold has_trait, hm_contains, carries. split.
    - destruct (hm_get sid_key_eqb t ts) as [v|] eqn:G; [|discriminate]. intros _.
      apply hm_get_Some_In in G as (k & I & E); auto with equivb. exists k, v. split; [exact I|]. apply goes_by_key, E.
    - intros (k & v & I & E). destruct (hm_get sid_key_eqb t ts) as [w|] eqn:G; [reflexivity|].
      rewrite hm_get_None_In in G by auto with equivb. specialize (G _ _ I). apply goes_by_key in E. congruence.
  Qed.

  Lemma trait_do_ok ts c : traits_ok ts -> call_ok c -> traits_ok (trait_do ts c).
  Proof.
    intros [D F] C. destruct c as [id v|id]; cbn [trait_do].
    - split; [apply apply_distinct, D|]. unfold apply_with_value. destruct (sid_is_member id) eqn:M; [exact F|].
      apply sid_is_member_false in M.
      assert (INS : forall w, match w with Some x => value_ok x | None => True end ->
                Forall (fun t => sid_member (fst t) = None /\ match snd t with Some v => value_ok v | None => True end)
                  (hm_insert sid_key_eqb id w ts)).
      { intros w W. apply Forall_forall. intros [k x] I. rewrite Forall_forall in F.
        apply hm_insert_In in I; auto with equivb. destruct I as [I|I]; [apply F, I|].
        destruct I as (-> & _ & E). cbn. split; [|exact W].
        destruct E as [->|(w' & I)]; [exact M|apply (F _ I)]. }
      destruct (trait_named id ts) as [old|] eqn:G.
      + destruct (merge_traits id old v) as [c|e|] eqn:E; [|exact F|exact F]. cbn [fst]. apply INS.
        assert (O : match old with Some x => value_ok x | None => True end).
        { unfold trait_named in G. apply hm_get_Some_In in G as (k & I & _); auto with equivb.
          rewrite Forall_forall in F. apply (F _ I). }
        unfold merge_traits in E. destruct old as [[x| | | | |]|], v as [[y| | | | |]|]; cbn in C;
          try (match goal with E : (if ?b then _ else _) = Ok _ |- _ => destruct b; [injection E as <-|discriminate] end; exact O).
        destruct x; [injection E as <-; exact C|]. destruct y; injection E as <-; [exact O|].
        inversion O; inversion C; subst. constructor. apply (proj2 (Forall_app _ (_ :: _) (_ :: _))). split; assumption.
      + apply INS. destruct v; [exact C|exact I].
    - split; [apply distinct_remove; auto with equivb|]. apply Forall_forall. intros e I. unfold remove_trait in I.
      apply hm_remove_In in I. rewrite Forall_forall in F. apply F, I.
  Qed.

  Lemma traits_after_snoc h c : traits_after (h ++ [c]) = trait_do (traits_after h) c.
  Proof. unfold traits_after. rewrite fold_left_app. reflexivity. Qed.
  Lemma traits_after_ok h : Forall call_ok h -> traits_ok (traits_after h).
  Proof.
    induction h as [|c h IH] using rev_ind; intros F.
    - split; constructor.
    - apply Forall_app in F as [F C]. rewrite traits_after_snoc. inversion C; subst. apply trait_do_ok; auto.
  Qed.

  Lemma named_do ts c t : traits_ok ts -> call_ok c ->
    forall h, holds t h (trait_named t ts) -> holds t (h ++ [c]) (trait_named t (trait_do ts c)).
  Proof.
    intros [D F] C h HH. destruct c as [id v|id]; cbn [trait_do].
    - destruct (sid_member id) as [mb|] eqn:M.
      { unfold apply_with_value, sid_is_member. rewrite M. apply h_member; [exact HH|congruence]. }
      destruct (sid_key_eqb id t) eqn:K.
      + assert (TN : trait_named id ts = trait_named t ts) by (apply hm_get_cong; auto with equivb).
        unfold apply_with_value. rewrite (proj2 (sid_is_member_false id) M), TN.
        apply goes_by_key in K as G.
        destruct (trait_named t ts) as [old|] eqn:TT.
        * assert (O : match old with Some x => value_ok x | None => True end).
          { unfold trait_named in TT. apply hm_get_Some_In in TT as (k & I & _); auto with equivb.
            rewrite Forall_forall in F. apply (F _ I). }
          assert (V : match v with Some x => value_ok x | None => True end) by (destruct v; [exact C|exact I]).
          destruct (merge_traits_err id old v) as [[c Em]|Em]; rewrite Em; cbn [fst].
          -- unfold trait_named. rewrite hm_get_insert, K by auto with equivb.
             eapply h_again; [exact HH|exact G|exact M|]. apply (merge_traits_spec id); assumption.
          -- rewrite TT. apply h_refused; [exact HH|exact G|exact M|]. intros c CC.
             apply (merge_traits_spec id) in CC; auto. congruence.
        * cbn [fst]. unfold trait_named. rewrite hm_get_insert, K by auto with equivb.
          apply h_first; assumption.
      + destruct (apply_with_value ts id v) as [ts' r] eqn:A. cbn [fst].
        rewrite (apply_frame _ _ _ _ _ _ A K). apply h_other_apply; [exact HH|]. apply goes_by_key_false, K.
    - unfold remove_trait, trait_named. rewrite hm_get_remove by auto with equivb.
      destruct (sid_key_eqb id t) eqn:K.
      + eapply h_removed; [exact HH|]. apply goes_by_key, K.
      + apply h_other_remove; [exact HH|]. apply goes_by_key_false, K.
  Qed.

  Lemma holds_after h t : Forall call_ok h -> holds t h (trait_named t (traits_after h)).
  Proof.
    induction h as [|c h IH] using rev_ind; intros F.
    - constructor.
    - apply Forall_app in F as [F C]. inversion C; subst. rewrite traits_after_snoc.
      apply named_do; auto using traits_after_ok.
  Qed.

  Lemma combine_trait_unique a b c d : combine_trait a b c -> combine_trait a b d -> c = d.
  Proof.
    intros C D. destruct C as [|a b c C]; inversion D as [|? ? ? D']; subst; [reflexivity|]. f_equal.
    destruct C; inversion D'; subst; try reflexivity; exfalso;
      match goal with h : ~ (is_array_value _ /\ is_array_value _) |- _ => apply h; unfold is_array_value; eauto end.
  Qed.

  Lemma holds_unique t h x y : holds t h x -> holds t h y -> x = y.
  Proof.
    intros X. revert y. induction X; intros y Y; inversion Y as [E|? ? ? ? Y' N' E|? ? ? Y' N' E|? ? ? ? Y' N' E
        |? ? ? Y' N' E|? ? ? Y' N' M' E|? ? ? ? ? Y' N' M' C' E|? ? ? ? Y' N' M' C' E]; subst;
      try (match goal with E : [] = _ ++ [_] |- _ => destruct (app_cons_not_nil _ _ _ E) end);
      try (match goal with E : _ ++ [_] = [] |- _ => symmetry in E; destruct (app_cons_not_nil _ _ _ E) end);
      try reflexivity;
      apply app_inj_tail in E as [-> E]; try discriminate; injection E; intros; subst; try contradiction;
      try (apply IHX; assumption);
      try (apply IHX in Y'; try congruence).
    - injection Y' as <-. f_equal. eapply combine_trait_unique; eauto.
    - exfalso. injection Y' as <-. match goal with C : combine_trait _ _ _, R : forall c, ~ _ |- _ => exact (R _ C) end.
    - exfalso. injection Y' as <-. match goal with C : combine_trait _ _ _, R : forall c, ~ _ |- _ => exact (R _ C) end.
  Qed.

  Lemma holds_kept t h x : holds t h x -> (x <> None <-> applied_and_kept t h).
  Proof.
    assert (SN : forall (h1 : list trait_call) c h2 h c', h1 ++ c :: h2 = h ++ [c'] ->
              (h2 = [] /\ h1 = h /\ c = c') \/ exists h2', h2 = h2' ++ [c'] /\ h = h1 ++ c :: h2').
    { intros h1 c h2 h' c' E. destruct h2 as [|d h2 _] using rev_ind.
      - left. apply app_inj_tail in E as [-> ->]. auto.
      - right. exists h2. change (h1 ++ c :: h2 ++ [d]) with (h1 ++ (c :: h2) ++ [d]) in E. rewrite app_assoc in E.
        apply app_inj_tail in E as [<- ->]. auto. }
    assert (EXT : forall h c, (forall r, c = Remove r -> ~ goes_by r t) -> applied_and_kept t h -> applied_and_kept t (h ++ [c])).
    { intros h' c R (h1 & id & v & h2 & -> & G & M & NR). exists h1, id, v, (h2 ++ [c]). rewrite <- app_assoc. cbn.
      split; [reflexivity|]. split; [exact G|]. split; [exact M|]. intros r I. apply in_app_iff in I as [I|[I|[]]]; eauto. }
    assert (RED : forall h c, (forall id v, c = Apply id v -> goes_by id t -> sid_member id = None -> False) ->
              applied_and_kept t (h ++ [c]) -> applied_and_kept t h).
    { intros h' c R (h1 & id & v & h2 & E & G & M & NR). symmetry in E. apply SN in E as [(-> & -> & E)|(h2' & -> & ->)].
      - exfalso. eapply R; eauto.
      - exists h1, id, v, h2'. split; [reflexivity|]. split; [exact G|]. split; [exact M|]. intros r I. apply NR.
        apply in_app_iff. auto. }
    assert (NEW : forall h id v, goes_by id t -> sid_member id = None -> applied_and_kept t (h ++ [Apply id v])).
    { intros h' id v G M. exists h', id, v, []. split; [reflexivity|]. split; [exact G|]. split; [exact M|]. intros r []. }
    induction 1 as [|h x id v X IH N|h x id X IH N|h x id v X IH N|h x id X IH G|h id v X IH G M|h old id v c X IH G M C
                    |h old id v X IH G M C].
    - split; [congruence|]. intros (h1 & id & v & h2 & E & _). destruct (app_cons_not_nil _ _ _ E).
    - rewrite IH. split; [apply EXT; discriminate|apply RED]. intros i w [= <- <-] G _. contradiction.
    - rewrite IH. split; [apply EXT|apply RED; discriminate]. intros r [= <-]. exact N.
    - rewrite IH. split; [apply EXT; discriminate|apply RED]. intros i w [= <- <-] _ M. contradiction.
    - split; [congruence|]. intros (h1 & i & v & h2 & E & G' & M & NR). exfalso. symmetry in E.
      apply SN in E as [(_ & _ & E)|(h2' & -> & ->)]; [discriminate|]. apply (NR id); [|exact G].
      apply in_app_iff. right; left; reflexivity.
    - split; [intros _; auto|discriminate].
    - split; [intros _; auto|discriminate].
    - split; [intros _; auto|discriminate].
  Qed.

  (** [append_traits] is [apply_with_value] one by one, up to the first refusal. *)
  Lemma append_is_applies from : forall ts ts' r, append_traits ts from = (ts', r) ->
    exists done rest, from = done ++ rest
      /\ ts' = fold_left trait_do (map (fun t => Apply (fst t) (snd t)) done) ts
      /\ (forall i, i < length done ->
            snd (apply_with_value (fold_left trait_do (map (fun t => Apply (fst t) (snd t)) (firstn i done)) ts)
                   (fst (nth i done (SID [] [] None, None))) (snd (nth i done (SID [] [] None, None)))) = Ok tt)
      /\ match rest with
         | [] => r = Ok tt
         | t :: _ => r <> Ok tt /\ apply_with_value ts' (fst t) (snd t) = (ts', r)
         end.
  Proof.
    induction from as [|[id v] from IH]; intros ts ts' r E; cbn in E.
    - injection E as <- <-. exists [], []. repeat split. cbn. intros i I. lia.
    - destruct (apply_with_value ts id v) as [ts1 r1] eqn:A. destruct r1 as [[]|e|].
      + destruct (IH _ _ _ E) as (done & rest & -> & -> & S & R). exists ((id, v) :: done), rest.
        split; [reflexivity|]. cbn [map fold_left trait_do fst snd]. rewrite A. cbn [fst]. split; [reflexivity|]. split; [|exact R].
        intros [|i] I; cbn; rewrite A; [reflexivity|]. cbn. apply S. cbn in I. lia.
      + injection E as <- <-. exists [], ((id, v) :: from).
        assert (ts1 = ts) as ->.
        { unfold apply_with_value in A. destruct (sid_is_member id); [injection A as <- _; reflexivity|].
          destruct (trait_named id ts); [destruct (merge_traits _ _ _)|]; injection A; intros; subst; congruence. }
        repeat split; [cbn; intros i I; lia|discriminate|exact A].
      + injection E as <- <-. exists [], ((id, v) :: from).
        assert (ts1 = ts) as ->.
        { unfold apply_with_value in A. destruct (sid_is_member id); [injection A as <- _; reflexivity|].
          destruct (trait_named id ts); [destruct (merge_traits _ _ _)|]; injection A; intros; subst; congruence. }
        repeat split; [cbn; intros i I; lia|discriminate|exact A].
  Qed.

  Lemma ts_member_named s n m : body_ok (ts_body s) -> (ts_member s n = Some m <-> member_named (ts_body s) n m).
  Proof.
    assert (KEY : forall k, ident_key_eqb k n = true <-> same_name k n /\ hash_str k = hash_str n).
    { intros k. unfold ident_key_eqb. rewrite andb_true_iff, ident_eqb_same. first [rewrite Z.eqb_eq; tauto|idtac]. }
    unfold ts_member. intros B. destruct (ts_body s) as [b|mb|mb|k v|ms|ms|sv|o|r|];
      try (split; [discriminate|inversion 1]).
    - split; [destruct (ident_eqb n (lit "member")) eqn:E; [|discriminate]; intros [= <-]; constructor; apply ident_eqb_same, E|].
      inversion 1; subst. rewrite (proj2 (ident_eqb_same _ _)) by assumption. reflexivity.
    - split; [destruct (ident_eqb n (lit "member")) eqn:E; [|discriminate]; intros [= <-]; constructor; apply ident_eqb_same, E|].
      inversion 1; subst. rewrite (proj2 (ident_eqb_same _ _)) by assumption. reflexivity.
    - split.
      + destruct (ident_eqb n (lit "key")) eqn:E.
        { intros [= <-]. apply mn_key, ident_eqb_same, E. }
        destruct (ident_eqb n (lit "value")) eqn:E'; [|discriminate]. intros [= <-]. apply mn_value, ident_eqb_same, E'.
      + inversion 1 as [| |? ? ? S|? ? ? S| |]; subst.
        * rewrite (proj2 (ident_eqb_same _ _)) by assumption. reflexivity.
        * assert (ident_eqb n (lit "key") = false) as ->.
          { destruct (ident_eqb n (lit "key")) eqn:E; [|reflexivity]. apply ident_eqb_same in E. unfold same_name in *.
            rewrite E in S. vm_compute in S. discriminate. }
          rewrite (proj2 (ident_eqb_same _ _)) by assumption. reflexivity.
    - unfold su_member. split.
      + intros G. apply hm_get_Some_In in G as (k & I & E); auto with equivb. apply KEY in E as [E1 E2]. econstructor; eauto.
      + inversion 1; subst. eapply hm_get_In_key; eauto with equivb. apply KEY. auto.
    - unfold su_member. split.
      + intros G. apply hm_get_Some_In in G as (k & I & E); auto with equivb. apply KEY in E as [E1 E2]. econstructor; eauto.
      + inversion 1; subst. eapply hm_get_In_key; eauto with equivb. apply KEY. auto.
  Qed.
End Traits.

(** ** Numbers *)
Open Scope Z_scope.

Lemma land_mag b : Z.land b 0x7FFFFFFFFFFFFFFF = b mod 2 ^ 63.
Proof. change 0x7FFFFFFFFFFFFFFF with (Z.ones 63). apply Z.land_ones. lia. Qed.
Lemma land_frac b : Z.land b 0x000FFFFFFFFFFFFF = b mod 2 ^ 52.
Proof. change 0x000FFFFFFFFFFFFF with (Z.ones 52). apply Z.land_ones. lia. Qed.
Lemma mag_split b : b mod 2 ^ 63 = f64_exponent b * 2 ^ 52 + f64_fraction b.
Proof.
  unfold f64_exponent, f64_fraction. change (2 ^ 63) with (2 ^ 52 * 2 ^ 11).
  rewrite Z.rem_mul_r by lia. lia.
Qed.
Lemma exponent_range b : 0 <= f64_exponent b < 2 ^ 11.
Proof. apply Z.mod_pos_bound. lia. Qed.
Lemma fraction_range b : 0 <= f64_fraction b < 2 ^ 52.
Proof. apply Z.mod_pos_bound. lia. Qed.
Lemma land_exp b : Z.land b 0x7FF0000000000000 = f64_exponent b * 2 ^ 52.
Proof.
  unfold f64_exponent. rewrite <- Z.shiftr_div_pow2, <- Z.land_ones, <- Z.shiftl_mul_pow2 by lia.
  apply Z.bits_inj'. intros n N. rewrite Z.land_spec, Z.shiftl_spec by lia.
  destruct (Z.ltb n 52) eqn:L.
  - rewrite (Z.testbit_neg_r _ (n - 52)) by lia. change 0x7FF0000000000000 with (Z.shiftl (Z.ones 11) 52).
    rewrite Z.shiftl_spec by lia. rewrite (Z.testbit_neg_r _ (n - 52)) by lia. apply andb_false_r.
  - rewrite Z.land_spec, Z.shiftr_spec by lia. replace (n - 52 + 52) with n by lia. f_equal.
    change 0x7FF0000000000000 with (Z.shiftl (Z.ones 11) 52). rewrite Z.shiftl_spec by lia. reflexivity.
Qed.

Lemma f64_is_nan_spec b : f64_is_nan b = true <-> f64_nan b.
Proof.
  unfold f64_is_nan, f64_nan. rewrite andb_true_iff, negb_true_iff, land_exp, land_frac. fold (f64_fraction b).
  change 0x7FF0000000000000 with (2047 * 2 ^ 52). rewrite Z.eqb_eq, Z.eqb_neq. pose proof (exponent_range b).
  split; intros [A B]; (split; [|exact B]); nia.
Qed.
Lemma f64_is_nan_false b : f64_is_nan b = false <-> ~ f64_nan b.
Proof. rewrite <- f64_is_nan_spec. destruct (f64_is_nan b); split; congruence. Qed.

Definition mag_value (e f : Z) : Z := if e =? 0 then f else (2 ^ 52 + f) * 2 ^ (e - 1).
Lemma mag_value_mono e f e' f' :
  0 <= e -> 0 <= e' -> 0 <= f < 2 ^ 52 -> 0 <= f' < 2 ^ 52 ->
  e * 2 ^ 52 + f < e' * 2 ^ 52 + f' -> mag_value e f < mag_value e' f'.
Proof.
  intros E E' F F' L. unfold mag_value. destruct (Z.eqb_spec e 0) as [->|N], (Z.eqb_spec e' 0) as [->|N'].
  - lia.
  - assert (0 < 2 ^ (e' - 1)) by (apply Z.pow_pos_nonneg; lia). nia.
  - nia.
  - destruct (Z.eq_dec e e') as [<-|D].
    + assert (0 < 2 ^ (e - 1)) by (apply Z.pow_pos_nonneg; lia). nia.
    + assert (LE : e < e') by nia.
      assert (P : 2 ^ e <= 2 ^ (e' - 1)) by (apply Z.pow_le_mono_r; lia).
      assert (Q : 2 ^ e = 2 * 2 ^ (e - 1)).
      { replace e with (Z.succ (e - 1)) at 1 by lia. apply Z.pow_succ_r. lia. }
      assert (0 < 2 ^ (e - 1)) by (apply Z.pow_pos_nonneg; lia). nia.
Qed.
Lemma mag_value_nonneg e f : 0 <= e -> 0 <= f -> 0 <= mag_value e f.
Proof. intros E F. unfold mag_value. destruct (e =? 0); [exact F|]. assert (0 <= 2 ^ (e - 1)) by (apply Z.pow_nonneg; lia). nia. Qed.
Lemma mag_value_zero e f : 0 <= e -> 0 <= f -> (mag_value e f = 0 <-> e * 2 ^ 52 + f = 0).
Proof.
  intros E F. unfold mag_value. destruct (Z.eqb_spec e 0) as [->|N]; [lia|].
  assert (0 < 2 ^ (e - 1)) by (apply Z.pow_pos_nonneg; lia). nia.
Qed.

Lemma signed_units a b : Z.compare (f64_signed a) (f64_signed b) = Z.compare (f64_units a) (f64_units b).
Proof.
  unfold f64_signed, f64_units, f64_sign. rewrite !land_mag, !mag_split.
  change (f64_magnitude a) with (mag_value (f64_exponent a) (f64_fraction a)).
  change (f64_magnitude b) with (mag_value (f64_exponent b) (f64_fraction b)).
  pose proof (exponent_range a) as EA. pose proof (exponent_range b) as EB.
  pose proof (fraction_range a) as FA. pose proof (fraction_range b) as FB.
  generalize dependent (f64_exponent a). generalize dependent (f64_exponent b).
  generalize dependent (f64_fraction a). generalize dependent (f64_fraction b). intros f FB g FA e EB d EA.
  pose proof (mag_value_mono d g e f) as M1. pose proof (mag_value_mono e f d g) as M2.
  pose proof (mag_value_nonneg d g) as P1. pose proof (mag_value_nonneg e f) as P2.
  pose proof (mag_value_zero d g) as Z1. pose proof (mag_value_zero e f) as Z2.
  assert (EQ : d * 2 ^ 52 + g = e * 2 ^ 52 + f -> mag_value d g = mag_value e f).
  { intros Q. assert (d = e) by nia. assert (g = f) by nia. subst. reflexivity. }
  destruct (Z.testbit a 63), (Z.testbit b 63);
    match goal with |- (?x ?= ?y) = _ => destruct (Z.compare_spec x y) end; symmetry;
    first [apply Z.compare_eq_iff | apply Z.compare_lt_iff | apply Z.compare_gt_iff]; lia.
Qed.

Lemma number_cmp_lt a b : number_partial_cmp a b = Some Lt <-> number_before a b.
Proof.
  destruct a as [x|x], b as [y|y]; cbn [number_partial_cmp].
  - split; [intros [= E]; constructor; apply E|]. inversion 1; subst. f_equal. apply Z.compare_lt_iff. assumption.
  - split; [intros _; constructor|reflexivity].
  - split; [discriminate|inversion 1].
  - unfold f64_partial_cmp. destruct (f64_is_nan x) eqn:X; cbn [orb].
    { split; [discriminate|]. inversion 1; subst. apply f64_is_nan_spec in X. contradiction. }
    destruct (f64_is_nan y) eqn:Y.
    { split; [discriminate|]. inversion 1; subst. apply f64_is_nan_spec in Y. contradiction. }
    rewrite signed_units. split.
    + intros [= E]. apply f64_is_nan_false in X, Y. constructor; auto.
    + inversion 1; subst. f_equal. apply Z.compare_lt_iff. assumption.
Qed.
Lemma number_cmp_gt a b : number_partial_cmp a b = Some Gt <-> number_before b a.
Proof.
  rewrite <- number_cmp_lt. destruct a as [x|x], b as [y|y]; cbn [number_partial_cmp]; try (split; congruence).
  - rewrite (Z.compare_antisym y x). destruct (y ?= x); cbn; split; congruence.
  - unfold f64_partial_cmp. rewrite (orb_comm (f64_is_nan x)). destruct (_ || _); [split; discriminate|].
    rewrite (Z.compare_antisym (f64_signed y) (f64_signed x)). destruct (_ ?= _); cbn; split; congruence.
Qed.
Lemma number_cmp_eq a b : number_partial_cmp a b = Some Eq <-> number_same a b.
Proof.
  destruct a as [x|x], b as [y|y]; cbn [number_partial_cmp]; try (split; [discriminate|inversion 1]).
  - split; [intros [= E]; apply Z.compare_eq_iff in E; subst; constructor|]. inversion 1; subst. rewrite Z.compare_refl. reflexivity.
  - unfold f64_partial_cmp. destruct (f64_is_nan x) eqn:X; cbn [orb].
    { split; [discriminate|]. inversion 1; subst. apply f64_is_nan_spec in X. contradiction. }
    destruct (f64_is_nan y) eqn:Y.
    { split; [discriminate|]. inversion 1; subst. apply f64_is_nan_spec in Y. contradiction. }
    rewrite signed_units. split.
    + intros [= E]. apply f64_is_nan_false in X, Y. apply Z.compare_eq_iff in E. constructor; auto.
    + inversion 1; subst. f_equal. apply Z.compare_eq_iff. assumption.
Qed.
Lemma number_cmp_none a b : number_partial_cmp a b = None <->
  match a, b with NFloat x, NFloat y => f64_nan x \/ f64_nan y | _, _ => False end.
Proof.
  destruct a as [x|x], b as [y|y]; cbn [number_partial_cmp]; try (split; [discriminate|intros []]).
  unfold f64_partial_cmp. rewrite <- !f64_is_nan_spec, <- orb_true_iff. destruct (_ || _); split; congruence.
Qed.

(** Equal bits or two zeros is the same as equal values. *)
Lemma f64_eqb_units a b : is_f64 a -> is_f64 b ->
  (f64_eqb a b = true <-> ~ f64_nan a /\ ~ f64_nan b /\ f64_units a = f64_units b).
Proof.
  intros A B. unfold f64_eqb. rewrite !andb_true_iff, !negb_true_iff, !f64_is_nan_false, orb_true_iff, andb_true_iff, Z.eqb_eq.
  assert (IFF : (a = b \/ f64_is_zero a = true /\ f64_is_zero b = true) <-> f64_units a = f64_units b).
  { assert (SG : forall x, is_f64 x -> x = (if Z.testbit x 63 then 2 ^ 63 else 0) + x mod 2 ^ 63).
    { intros x X. unfold is_f64 in X. rewrite Z.testbit_eqb by lia.
      assert (x / 2 ^ 63 = 0 \/ x / 2 ^ 63 = 1) as [D|D].
      { assert (0 <= x / 2 ^ 63 < 2) by (split; [apply Z.div_pos; lia|apply Z.div_lt_upper_bound; lia]). lia. }
      - rewrite D. change (0 mod 2 =? 1) with false. pose proof (Z.div_mod x (2 ^ 63)). lia.
      - rewrite D. change (1 mod 2 =? 1) with true. pose proof (Z.div_mod x (2 ^ 63)). lia. }
    assert (ZZ : forall x, f64_is_zero x = true <-> x mod 2 ^ 63 = 0).
    { intros x. unfold f64_is_zero. rewrite Z.eqb_eq, land_mag. reflexivity. }
    rewrite !ZZ. rewrite <- (Z.compare_eq_iff (f64_units a)), <- signed_units, Z.compare_eq_iff.
    unfold f64_signed. rewrite !land_mag. specialize (SG a A) as SA. specialize (SG b B) as SB.
    pose proof (Z.mod_pos_bound a (2 ^ 63)) as MA. pose proof (Z.mod_pos_bound b (2 ^ 63)) as MB.
    destruct (Z.testbit a 63), (Z.testbit b 63); lia. }
  rewrite IFF. tauto.
Qed.
Close Scope Z_scope.
