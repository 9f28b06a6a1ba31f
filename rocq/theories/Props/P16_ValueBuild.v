(** C47: the builders of values. *)
From Verif.Model Require Import ValueBuild Json.
From Verif.Spec Require Import ValueBuildSpec ModelSpec JsonSpec Witness.
From Verif.Proofs Require Import HashMapFacts ShapeApiFacts ValueFacts.
From Verif.Props Require Import P05_Json.

Definition array_built (ds : list datum) : value := vab_value (fold_left array_do ds []).
Definition object_built (cs : list object_call) : value := vob_value (fold_left object_do cs []).

(** Arrays hold what was pushed, in order. *)
Theorem C47_array_calls : forall ds, array_built ds = VArray (map datum_value ds).
Proof.
  intros ds. unfold array_built, vab_value. f_equal. rewrite <- (app_nil_l (map _ _)). generalize (@nil value).
  induction ds as [|d ds IH]; intros l; [cbn; rewrite app_nil_r; reflexivity|]. cbn [fold_left map]. rewrite IH.
  destruct d; cbn [array_do]; unfold vab_number, vab_integer, vab_float, vab_boolean, vab_string, vab_push; rewrite <- app_assoc; reflexivity.
Qed.
Print Assumptions C47_array_calls.

(** Objects hold, once for each key, the last value given for it. *)
Definition put_event (c : object_call) : map_event str value :=
  match c with CPut k d => Insert k (datum_value d) | CRef k s => Insert k (VString s) end.
Lemma object_fold cs : forall o, fold_left object_do cs o = fold_left (map_apply str_eqb) (map put_event cs) o.
Proof.
  induction cs as [|c cs IH]; intros o; [reflexivity|]. cbn [fold_left map]. rewrite IH. destruct c as [k []|k s]; reflexivity.
Qed.
Theorem C47_object_calls : forall cs, exists o, object_built cs = VObject o
  /\ distinct str_eqb o
  /\ forall k v, In (k, v) o <-> given k cs = Some v.
Proof.
  intros cs. eexists. split; [reflexivity|]. rewrite object_fold.
  assert (R : Forall (real str_eqb) (map put_event cs)).
  { apply Forall_forall. intros e I. apply in_map_iff in I as (c & <- & _). destruct c; exact Logic.I. }
  destruct (map_fold str_eqb str_eqb_equiv _ R) as [D G]. split; [exact D|]. intros k v.
  assert (E : said str_eqb k (map put_event cs) = given k cs).
  { unfold said, given. assert (X : flat_map (word str_eqb k) (map put_event cs) = map Some (flat_map (fun c => match c with
                             | CPut k' d => if str_eqb k' k then [datum_value d] else []
                             | CRef k' s => if str_eqb k' k then [VString s] else []
                             end) cs)).
    { induction cs as [|c cs IH]; [reflexivity|]. cbn [map flat_map]. rewrite map_app, IH.
      - f_equal. destruct c as [k' d|k' s]; cbn [put_event word]; destruct (str_eqb k' k); reflexivity.
      - inversion R; assumption.
      - inversion R; subst. apply (map_fold str_eqb str_eqb_equiv); assumption.
      - inversion R; subst. apply (map_fold str_eqb str_eqb_equiv); assumption. }
    rewrite X. unfold latest. rewrite <- map_rev. destruct (rev _); reflexivity. }
  rewrite <- E, <- G. split; [apply hm_get_In; [exact str_eqb_equiv|exact D]|].
  intros H. apply hm_get_Some_In in H as (k' & I & Q). apply str_eqb_eq in Q as ->. exact I.
Qed.
Print Assumptions C47_object_calls.

(** Two histories build equal objects exactly when they end with equal values for every key; in
    particular the order of calls for different keys does not matter. *)
Theorem C47_equal_objects : forall cs cs',
    (forall k d, In (CPut k d) (cs ++ cs') -> value_ok (datum_value d)) ->
    (value_eqb (object_built cs) (object_built cs') = true <-> forall k, opt_rel same_value (given k cs) (given k cs')).
Proof.
  intros cs cs' V.
  destruct (C47_object_calls cs) as (o & E & D & G). destruct (C47_object_calls cs') as (o' & E' & D' & G'). rewrite E, E'.
  assert (S : forall k v cs0, given k cs0 = Some v -> (exists d, In (CPut k d) cs0 /\ v = datum_value d) \/ exists s, v = VString s).
  { intros k v cs0 H. unfold given, latest in H.
    assert (I : In v (flat_map (fun c => match c with
                             | CPut k' d => if str_eqb k' k then [datum_value d] else []
                             | CRef k' s => if str_eqb k' k then [VString s] else []
                             end) cs0)).
    { apply in_rev. destruct (rev _); [discriminate|]. injection H as ->. left. reflexivity. }
    apply in_flat_map in I as (c & Ic & Iv). destruct c as [k' d|k' s]; destruct (str_eqb k' k) eqn:Q; cbn in Iv; try contradiction;
      destruct Iv as [<-|[]]; [|right; eexists; reflexivity]. apply str_eqb_eq in Q as ->. left. exists d. auto. }
  assert (O : value_ok (VObject o) /\ value_ok (VObject o')).
  { split; constructor; try assumption; apply Forall_forall; intros [k v] I; cbn [snd].
    - apply G in I. destruct (S _ _ _ I) as [(d & Id & ->)|[s ->]]; [|constructor]. eapply V. apply in_or_app. left. exact Id.
    - apply G' in I. destruct (S _ _ _ I) as [(d & Id & ->)|[s ->]]; [|constructor]. eapply V. apply in_or_app. right. exact Id. }
  destruct O as [O O']. rewrite value_eqb_spec by assumption.
  assert (L : forall k, lookup k o = given k cs).
  { intros k. unfold lookup. destruct (given k cs) as [v|] eqn:Q.
    - apply G in Q. apply hm_get_In; [exact str_eqb_equiv|exact D|exact Q].
    - destruct (hm_get str_eqb k o) as [v|] eqn:H; [|reflexivity]. apply hm_get_Some_In in H as (k' & I & X). apply str_eqb_eq in X as ->.
      apply G in I. congruence. }
  assert (L' : forall k, lookup k o' = given k cs').
  { intros k. unfold lookup. destruct (given k cs') as [v|] eqn:Q.
    - apply G' in Q. apply hm_get_In; [exact str_eqb_equiv|exact D'|exact Q].
    - destruct (hm_get str_eqb k o') as [v|] eqn:H; [|reflexivity]. apply hm_get_Some_In in H as (k' & I & X). apply str_eqb_eq in X as ->.
      apply G' in I. congruence. }
  split.
  - intros X k. inversion X as [|? ? N F| | | | |]; subst. specialize (N k). specialize (F k). rewrite L, L' in N, F.
    destruct (given k cs), (given k cs'); cbn; [apply F; reflexivity| | |exact I]; destruct N as [N1 N2]; [specialize (N2 eq_refl)|specialize (N1 eq_refl)]; discriminate.
  - intros X. constructor; intros k; specialize (X k); rewrite <- L, <- L' in X.
    + destruct (lookup k o), (lookup k o'); cbn in X; try contradiction; split; congruence.
    + intros v w Ev Ew. rewrite Ev, Ew in X. exact X.
Qed.
Print Assumptions C47_equal_objects.

(** What is built can be written as JSON and read back. *)
Theorem C47_built_values_round_trip : forall v,
    (exists ds, Forall (fun d => value_ok (datum_value d) /\ finite_value (datum_value d)) ds /\ v = array_built ds)
    \/ (exists cs, (forall k d, In (CPut k d) cs -> value_ok (datum_value d) /\ finite_value (datum_value d)) /\ v = object_built cs) ->
    exists j, write_value v = Ok j /\ value_eqb v (read_value j) = true.
Proof.
  intros v S. assert (X : value_ok v /\ finite_value v).
  { destruct S as [(ds & F & ->)|(cs & F & ->)].
    - rewrite C47_array_calls. split; constructor; apply Forall_forall; intros x I; apply in_map_iff in I as (d & <- & I);
        rewrite Forall_forall in F; apply F, I.
    - destruct (C47_object_calls cs) as (o & E & D & G). rewrite E.
      assert (A : forall k x, In (k, x) o -> value_ok x /\ finite_value x).
      { intros k x I. apply G in I. unfold given, latest in I.
        assert (I' : In x (flat_map (fun c => match c with
                             | CPut k' d => if str_eqb k' k then [datum_value d] else []
                             | CRef k' s => if str_eqb k' k then [VString s] else []
                             end) cs)).
        { apply in_rev. destruct (rev _); [discriminate|]. injection I as ->. left. reflexivity. }
        apply in_flat_map in I' as (c & Ic & Iv). destruct c as [k' d|k' s]; destruct (str_eqb k' k); cbn in Iv; try contradiction;
          destruct Iv as [<-|[]]; [eapply F; exact Ic|split; constructor]. }
      split; [constructor; [exact D|]|constructor]; apply Forall_forall; intros [k x] I; apply (A k x I). }
  destruct X as [O F]. destruct (C25_value_round_trip v O F) as (j & W & _ & Q). exists j. auto.
Qed.
Print Assumptions C47_built_values_round_trip.

Example C47_ex :
  array_built [DString (lit "a"); DInteger 1; DBoolean true] = VArray [VString (lit "a"); VNumber (NInteger 1); VBoolean true]
  /\ given (lit "k") [CPut (lit "k") (DInteger 1); CRef (lit "l") (lit "x"); CPut (lit "k") (DInteger 2)] = Some (VNumber (NInteger 2))
  /\ value_eqb (object_built [CPut (lit "k") (DInteger 1); CRef (lit "l") (lit "x"); CPut (lit "k") (DInteger 2)])
               (object_built [CPut (lit "k") (DInteger 2); CPut (lit "l") (DString (lit "x"))]) = true.
Proof. repeat split. Qed.
