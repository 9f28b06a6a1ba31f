(** Facts about the JSON reader and writer. *)
From Verif.Model Require Import Json.
From Verif.Spec Require Import IdentitySpec ModelSpec ReorderSpec JsonSpec.
From Verif.Proofs Require Import BaseFacts IdentityFacts HashMapFacts ValueFacts ShapeFacts ModelFacts MergeFacts ReorderFacts.
From Coq Require Import Sorted.

(** ** Sorted maps *)
Lemma bm_get_insert {V} (k k' : str) (v : V) m :
  hm_get str_eqb k (bm_insert k' v m) = if str_eqb k' k then Some v else hm_get str_eqb k m.
Proof.
  induction m as [|[k0 v0] m IH]; cbn; [reflexivity|]. destruct (str_cmp k' k0) eqn:E; cbn.
  - apply str_cmp_eq in E. subst k0. destruct (str_eqb k' k); reflexivity.
  - reflexivity.
  - rewrite IH. destruct (str_eqb k0 k) eqn:E0; [|reflexivity]. apply str_eqb_eq in E0. subst k0.
    destruct (str_eqb k' k) eqn:E1; [|reflexivity]. apply str_eqb_eq in E1. subst k'. rewrite str_cmp_refl in E. discriminate.
Qed.
(** The last entry with the key wins. *)
Fixpoint last_get {V} (k : str) (l : list (str * V)) : option V :=
  match l with
  | [] => None
  | (k', v) :: l' => match last_get k l' with Some w => Some w | None => if str_eqb k' k then Some v else None end
  end.
Lemma bm_get_fold {V} k (l : list (str * V)) : forall m,
  hm_get str_eqb k (fold_left (fun m kv => bm_insert (fst kv) (snd kv) m) l m)
  = match last_get k l with Some w => Some w | None => hm_get str_eqb k m end.
Proof.
  induction l as [|[k' v] l IH]; intros m; cbn; [reflexivity|]. rewrite IH, bm_get_insert. destruct (last_get k l); [reflexivity|]. destruct (str_eqb k' k); reflexivity.
Qed.
Lemma bm_get {V} k (l : list (str * V)) : hm_get str_eqb k (bm_from_list l) = last_get k l.
Proof. unfold bm_from_list. rewrite bm_get_fold. cbn. destruct (last_get k l); reflexivity. Qed.
Lemma last_get_app {V} k (a b : list (str * V)) :
  last_get k (a ++ b) = match last_get k b with Some w => Some w | None => last_get k a end.
Proof.
  induction a as [|[k' v] a IH]; cbn; [destruct (last_get k b); reflexivity|]. rewrite IH. destruct (last_get k b); reflexivity.
Qed.

Lemma bm_insert_perm {V} k (v : V) m : (forall v', ~ In (k, v') m) -> Permutation ((k, v) :: m) (bm_insert k v m).
Proof.
  induction m as [|[k0 v0] m IH]; intros N; cbn; [reflexivity|]. destruct (str_cmp k k0) eqn:E.
  - apply str_cmp_eq in E. subst k0. exfalso. apply (N v0). left; reflexivity.
  - reflexivity.
  - rewrite perm_swap. constructor. apply IH. intros v' I. apply (N v'). right; exact I.
Qed.
Lemma bm_insert_In {V} k (v : V) m x : In x (bm_insert k v m) -> x = (k, v) \/ In x m.
Proof.
  induction m as [|[k0 v0] m IH]; cbn; [intros [<-|[]]; auto|]. destruct (str_cmp k k0) eqn:E; cbn; intros I.
  - apply str_cmp_eq in E. subst k0. destruct I as [<-|I]; auto.
  - destruct I as [<-|I]; auto.
  - destruct I as [<-|I]; auto. destruct (IH I); auto.
Qed.
Lemma bm_from_list_perm {V} (l : list (str * V)) : distinct str_eqb l -> Permutation l (bm_from_list l).
Proof.
  intros D. unfold bm_from_list.
  assert (G : forall l m : list (str * V), distinct str_eqb (m ++ l) -> Permutation (m ++ l) (fold_left (fun m kv => bm_insert (fst kv) (snd kv) m) l m)).
  { clear. induction l as [|[k v] l IH]; intros m D; cbn; [rewrite app_nil_r; reflexivity|].
    assert (N : forall v', ~ In (k, v') m).
    { intros v' I. clear IH. induction m as [|[k0 v0] m IHm]; cbn in *; [destruct I|]. destruct D as [D1 D2]. destruct I as [E|I]; [|apply IHm; assumption].
      injection E as -> ->. assert (X := D1 k v). rewrite str_eqb_refl in X. discriminate X. apply in_app_iff. right; left; reflexivity. }
    assert (P := bm_insert_perm k v m N).
    rewrite <- IH; [|eapply (distinct_perm str_eqb str_eqb_equiv); [|exact D]].
    - rewrite <- P. cbn. symmetry. apply Permutation_middle.
    - rewrite <- P. cbn. symmetry. apply Permutation_middle. }
  apply (G l []). exact D.
Qed.
Lemma bm_insert_sorted {V} k (v : V) m : StronglySorted key_lt m -> StronglySorted key_lt (bm_insert k v m).
Proof.
  intros S. induction S as [|[k0 v0] m S IH F]; cbn; [repeat constructor|]. destruct (str_cmp k k0) eqn:E.
  - constructor; [assumption|]. exact F.
  - constructor; [constructor; assumption|]. constructor; [exact E|]. revert F. apply Forall_impl. intros [k1 v1] L. unfold key_lt in *. cbn in *.
    eapply str_cmp_lt_trans; eassumption.
  - constructor; [assumption|]. apply Forall_forall. intros x I. apply bm_insert_In in I as [->|I]; [|rewrite Forall_forall in F; apply F, I].
    unfold key_lt. cbn. rewrite str_cmp_antisym, E. reflexivity.
Qed.
Lemma bm_from_list_sorted {V} (l : list (str * V)) : StronglySorted key_lt (bm_from_list l).
Proof.
  unfold bm_from_list. assert (G : forall m, StronglySorted key_lt m -> StronglySorted key_lt (fold_left (fun m kv => bm_insert (fst kv) (snd kv) m) l m)).
  { induction l as [|[k v] l IH]; intros m S; cbn; [assumption|]. apply IH, bm_insert_sorted, S. }
  apply G. constructor.
Qed.
Lemma bm_from_list_In {V} (l : list (str * V)) x : In x (bm_from_list l) -> In x l.
Proof.
  unfold bm_from_list. assert (G : forall l m : list (str * V), In x (fold_left (fun m kv => bm_insert (fst kv) (snd kv) m) l m) -> In x l \/ In x m).
  { clear. induction l as [|[k v] l IH]; intros m I; cbn in *; [auto|]. apply IH in I as [I|I]; [auto|]. apply bm_insert_In in I as [->|I]; auto. }
  intros I. apply G in I as [I|[]]. exact I.
Qed.
(** A sorted list is rebuilt unchanged. *)
Lemma bm_insert_last {V} k (v : V) m : Forall (fun x => key_lt x (k, v)) m -> bm_insert k v m = m ++ [(k, v)].
Proof.
  induction 1 as [|[k0 v0] m L F IH]; cbn; [reflexivity|]. unfold key_lt in L. cbn in L. rewrite str_cmp_antisym, L. cbn. rewrite IH. reflexivity.
Qed.
Lemma bm_from_sorted {V} (l : list (str * V)) : StronglySorted key_lt l -> bm_from_list l = l.
Proof.
  intros S. unfold bm_from_list.
  assert (G : forall l m : list (str * V), StronglySorted key_lt (m ++ l) -> fold_left (fun m kv => bm_insert (fst kv) (snd kv) m) l m = m ++ l).
  { clear. induction l as [|[k v] l IH]; intros m S; cbn; [rewrite app_nil_r; reflexivity|]. rewrite bm_insert_last.
    - rewrite IH; rewrite <- app_assoc; [reflexivity|exact S].
    - clear IH. induction m as [|x m IHm]; [constructor|]. cbn in S. inversion S as [|? ? S' F]; subst. constructor; [|apply IHm, S'].
      rewrite Forall_app in F. destruct F as [_ F]. inversion F; subst. assumption. }
  apply (G l []), S.
Qed.
Lemma sorted_distinct {V} (l : list (str * V)) : StronglySorted key_lt l -> distinct str_eqb l.
Proof.
  induction 1 as [|[k v] l S IH F]; cbn; [exact I|]. split; [|exact IH]. intros k' v' I. rewrite Forall_forall in F. specialize (F _ I).
  unfold key_lt in F. cbn in F. apply str_eqb_neq. intros ->. rewrite str_cmp_refl in F. discriminate.
Qed.

Lemma hm_from_list_distinct {K V} (keq : K -> K -> bool) (l : list (K * V)) : distinct keq l -> (forall a b, keq a b = keq b a) -> hm_from_list keq l = l.
Proof.
  intros D SY. unfold hm_from_list.
  assert (G : forall l m : list (K * V), distinct keq (m ++ l) -> fold_left (fun m kv => hm_insert keq (fst kv) (snd kv) m) l m = m ++ l).
  { clear -SY. induction l as [|[k v] l IH]; intros m D; cbn; [rewrite app_nil_r; reflexivity|].
    assert (N : hm_get keq k m = None).
    { clear IH. induction m as [|[k0 v0] m IHm]; cbn in *; [reflexivity|]. destruct D as [D1 D2]. rewrite SY, (D1 k v), IHm; auto. apply in_app_iff. right; left; reflexivity. }
    rewrite (hm_insert_fresh keq m k v N). rewrite IH; rewrite <- app_assoc; [reflexivity|exact D]. }
  apply (G l []), D.
Qed.

(** ** Sequences of calls *)
Lemma rmap_ok {A B} (f : A -> result B) l l' : rmap f l = Ok l' <-> Forall2 (fun x y => f x = Ok y) l l'.
Proof.
  revert l'. induction l as [|x l IH]; intros l'; cbn.
  - split; [intros [= <-]; constructor|inversion 1; reflexivity].
  - split.
    + destruct (f x) as [y|e|] eqn:E; cbn; try discriminate. destruct (rmap f l) as [ys|e|] eqn:E'; cbn; try discriminate. intros [= <-].
      constructor; [assumption|apply IH; reflexivity].
    + inversion 1 as [|? y ? ys Hx Hl]; subst. rewrite Hx. cbn. apply IH in Hl. rewrite Hl. reflexivity.
Qed.
Lemma rmap_total {A B} (f : A -> result B) l : Forall (fun x => exists y, f x = Ok y) l -> exists l', rmap f l = Ok l'.
Proof.
  induction 1 as [|x l (y & E) F (ys & IH)]; [exists []; reflexivity|]. exists (y :: ys). apply rmap_ok. constructor; [assumption|apply rmap_ok; assumption].
Qed.
Lemma rbind_ok {A B} (r : result A) (f : A -> result B) b : rbind r f = Ok b <-> exists a, r = Ok a /\ f a = Ok b.
Proof. destruct r; cbn; split; try (intros (a' & E & _); discriminate E); try discriminate; [eauto|intros (a' & [= ->] & E); exact E]. Qed.

(** ** Values *)
Lemma wrap_i64_id n : i64 n -> wrap_i64 n = n.
Proof. intros [_ L]. unfold wrap_i64. destruct (Z.gtb_spec n 0x7FFFFFFFFFFFFFFF); [lia|reflexivity]. Qed.

Lemma distinct_str_keys {V W} (a : list (str * V)) (b : list (str * W)) : map fst a = map fst b -> distinct str_eqb a -> distinct str_eqb b.
Proof.
  intros E D. apply (distinct_keys str_eqb a b); [|exact D]. clear D. revert b E. induction a as [|x a IH]; intros [|y b] E; try discriminate; constructor.
  - injection E as E _. exact E.
  - apply IH. injection E as _ E. exact E.
Qed.

(** Writing the entries of a map of values, and reading them back from the sorted JSON object. *)
Lemma read_value_object l : read_value (JObject l) = VObject (hm_from_list str_eqb (map (fun kv => (fst kv, read_value (snd kv))) l)).
Proof. reflexivity. Qed.

Definition write_entry (kv : str * value) : result (str * json) := j <- write_value (snd kv) ;; Ok (fst kv, j).
Definition read_entry (kv : str * json) : str * value := (fst kv, read_value (snd kv)).

Lemma entries_round l js :
  distinct str_eqb l ->
  Forall2 (fun x y => write_entry x = Ok y) l js ->
  (forall k v j, In (k, v) l -> write_value v = Ok j -> reorder_value v (read_value j)) ->
  exists l', Permutation l l' /\ Forall2 (fun x y => fst x = fst y /\ reorder_value (snd x) (snd y)) l' (hm_from_list str_eqb (map read_entry (bm_from_list js)))
  /\ map fst l = map fst js.
Proof.
  intros D F R.
  assert (K : map fst l = map fst js).
  { clear D R. induction F as [|[k v] [k' j] l js E F IH]; [reflexivity|]. cbn. apply rbind_ok in E as (? & _ & E). injection E as -> _. rewrite IH. reflexivity. }
  assert (Dj : distinct str_eqb js) by (apply (distinct_str_keys l js K D)).
  assert (P := bm_from_list_perm js Dj).
  assert (F' : Forall2 (fun y x => write_entry x = Ok y) js l) by (clear - F; induction F; constructor; auto).
  destruct (perm_forall2 _ _ _ _ P F') as (l' & Pl & Fl).
  exists l'. split; [exact Pl|]. split; [|exact K].
  rewrite hm_from_list_distinct.
  - assert (I : forall x, In x l' -> In x l) by (intros x; apply Permutation_in; symmetry; exact Pl).
    clear - Fl I R. generalize dependent (bm_from_list js). intros bs Fl. induction Fl as [|[k j] [k' v] bs l' E Fl IH]; cbn; constructor.
    + apply rbind_ok in E as (j' & Ej & E). injection E as -> ->. cbn in *. split; [reflexivity|]. eapply R; [apply I; left; reflexivity|exact Ej].
    + apply IH. intros x Ix. apply I. right; exact Ix.
  - apply (distinct_str_keys (bm_from_list js)); [|apply sorted_distinct, bm_from_list_sorted].
    rewrite map_map. reflexivity.
  - apply str_eqb_sym.
Qed.

Lemma write_value_finite v : finite_value v -> exists j, write_value v = Ok j.
Proof.
  induction v as [l IH|l IH|n| | |] using value_ind'; intros F; cbn; eauto.
  - inversion F as [? Fl| | | | | |]; subst. destruct (rmap_total write_value l) as [l' E].
    { rewrite Forall_forall in *. intros x I. apply IH, Fl; exact I. }
    rewrite E. cbn. eauto.
  - inversion F as [|? Fl| | | | |]; subst. destruct (rmap_total (fun kv => j <- write_value (snd kv) ;; Ok (fst kv, j)) l) as [l' E].
    { rewrite Forall_forall in *. intros x I. destruct (IH x I (Fl x I)) as [j Ej]. rewrite Ej. cbn. eauto. }
    rewrite E. cbn. eauto.
  - destruct n as [n|b]; [eauto|]. inversion F as [| | |? [N I]| | |]; subst. rewrite N, I. cbn. eauto.
Qed.

Lemma write_read_value v : forall j, value_ok v -> finite_value v -> write_value v = Ok j -> reorder_value v (read_value j).
Proof.
  induction v as [l IH|l IH|n| | |] using value_ind'; intros j O F E; cbn in E; try (injection E as <-; apply rv_same).
  - apply rbind_ok in E as (js & E & [= <-]). apply rmap_ok in E. cbn. apply rv_array.
    inversion O as [? Ol| | | | |]; inversion F as [? Fl| | | | | |]; subst. clear O F.
    induction E as [|x y l js Ex E IHE]; cbn; constructor; inversion IH; inversion Ol; inversion Fl; subst; auto.
  - apply rbind_ok in E as (js & E & [= <-]). apply rmap_ok in E. rewrite read_value_object.
    inversion O as [|? D Ol| | | |]; inversion F as [|? Fl| | | | |]; subst.
    destruct (entries_round l js D E) as (l' & P & F' & _).
    { intros k v j I Ej. rewrite Forall_forall in IH, Ol, Fl. apply (IH _ I); [exact (Ol _ I)|exact (Fl _ I)|exact Ej]. }
    eapply rv_object; [exact P|exact F'].
  - destruct n as [n|b].
    + injection E as <-. inversion F; subst. cbn. rewrite wrap_i64_id by assumption. apply rv_same.
    + destruct (f64_is_nan b || f64_is_inf b); [discriminate|]. injection E as <-. apply rv_same.
Qed.

Section JsonInd.
  Variable P : json -> Prop.
  Hypothesis HNull : P JNull.
  Hypothesis HB : forall b, P (JBool b).
  Hypothesis HI : forall n, P (JInt n).
  Hypothesis HF : forall b, P (JFloat b).
  Hypothesis HS : forall s, P (JString s).
  Hypothesis HA : forall l, Forall P l -> P (JArray l).
  Hypothesis HO : forall m, Forall (fun kv => P (snd kv)) m -> P (JObject m).
  Fixpoint json_ind' (j : json) : P j :=
    match j with
    | JNull => HNull | JBool b => HB b | JInt n => HI n | JFloat b => HF b | JString s => HS s
    | JArray l => HA l ((fix go (l : list json) : Forall P l :=
                           match l with [] => Forall_nil _ | x :: l' => Forall_cons _ (json_ind' x) (go l') end) l)
    | JObject m => HO m ((fix go (m : jmap) : Forall (fun kv => P (snd kv)) m :=
                            match m with [] => Forall_nil _ | x :: m' => Forall_cons _ (json_ind' (snd x)) (go m') end) m)
    end.
End JsonInd.

Lemma read_write_value j : json_ok j -> json_i64 j -> write_value (read_value j) = Ok j.
Proof.
  induction j as [|b|n|b|s|l IH|l IH] using json_ind'; intros O W; cbn; try reflexivity.
  - inversion W; subst. rewrite wrap_i64_id by assumption. reflexivity.
  - inversion O as [| | |? [N I]| | |]; subst. rewrite N, I. reflexivity.
  - inversion O as [| | | | |? Ol|]; inversion W as [| | | | |? Wl|]; subst. rewrite (proj2 (rmap_ok write_value _ l)); [reflexivity|].
    clear O W. induction l as [|x l IHl]; cbn; constructor; inversion IH; inversion Ol; inversion Wl; subst; auto.
  - inversion O as [| | | | | |? S Ol]; inversion W as [| | | | | |? Wl]; subst.
    rewrite hm_from_list_distinct; [| |apply str_eqb_sym].
    + rewrite (proj2 (rmap_ok _ _ l)); [cbn; rewrite bm_from_sorted by assumption; reflexivity|].
      clear O W S. induction l as [|[k x] l IHl]; cbn; constructor; inversion IH; inversion Ol; inversion Wl; subst; auto.
      cbn in *. rewrite H1 by assumption. reflexivity.
    + apply (distinct_str_keys l); [rewrite map_map; reflexivity|apply sorted_distinct, S].
Qed.

Lemma write_value_ok v : forall j, finite_value v -> write_value v = Ok j -> json_ok j.
Proof.
  induction v as [l IH|l IH|n| | |] using value_ind'; intros j F E; cbn in E; try (injection E as <-; constructor; fail).
  - apply rbind_ok in E as (js & E & [= <-]). apply rmap_ok in E. constructor. inversion F as [? Fl| | | | | |]; subst. clear F.
    induction E as [|x y l js Ex E IHE]; constructor; inversion IH; inversion Fl; subst; auto.
  - apply rbind_ok in E as (js & E & [= <-]). apply rmap_ok in E. constructor; [apply bm_from_list_sorted|].
    inversion F as [|? Fl| | | | |]; subst. apply Forall_forall. intros [k j] I. apply bm_from_list_In in I.
    destruct (forall2_in_r _ _ _ _ E I) as ([k' v] & Iv & Ej). apply rbind_ok in Ej as (j' & Ej & [= <- <-]). cbn.
    rewrite Forall_forall in IH, Fl. apply (IH _ Iv); [exact (Fl _ Iv)|exact Ej].
  - destruct n as [n|b].
    + injection E as <-. inversion F; subst. constructor. unfold i64 in *. lia.
    + destruct (f64_is_nan b) eqn:N, (f64_is_inf b) eqn:I; try discriminate. injection E as <-. constructor. split; assumption.
Qed.

Lemma write_value_i64 v : forall j, finite_value v -> write_value v = Ok j -> json_i64 j.
Proof.
  induction v as [l IH|l IH|n| | |] using value_ind'; intros j F E; cbn in E; try (injection E as <-; constructor; fail).
  - apply rbind_ok in E as (js & E & [= <-]). apply rmap_ok in E. constructor. inversion F as [? Fl| | | | | |]; subst. clear F.
    induction E as [|x y l js Ex E IHE]; constructor; inversion IH; inversion Fl; subst; auto.
  - apply rbind_ok in E as (js & E & [= <-]). apply rmap_ok in E. constructor.
    inversion F as [|? Fl| | | | |]; subst. apply Forall_forall. intros [k j] I. apply bm_from_list_In in I.
    destruct (forall2_in_r _ _ _ _ E I) as ([k' v] & Iv & Ej). apply rbind_ok in Ej as (j' & Ej & [= <- <-]). cbn.
    rewrite Forall_forall in IH, Fl. apply (IH _ Iv); [exact (Fl _ Iv)|exact Ej].
  - destruct n as [n|b].
    + injection E as <-. inversion F; subst. constructor. assumption.
    + destruct (f64_is_nan b) eqn:N, (f64_is_inf b) eqn:I; try discriminate. injection E as <-. constructor.
Qed.

(** The writer panics exactly on values with a float that is not finite. *)
Lemma rmap_panic {A B} (f : A -> result B) l : (forall x, In x l -> (exists y, f x = Ok y) \/ f x = Panic) ->
  (exists l', rmap f l = Ok l') \/ (rmap f l = Panic /\ exists x, In x l /\ f x = Panic).
Proof.
  induction l as [|x l IH]; intros X; cbn; [left; eauto|]. destruct (X x (or_introl eq_refl)) as [[y E]|E]; rewrite E; cbn.
  - destruct IH as [[l' E']|[E' (z & I & Ez)]]; [intros; apply X; right; assumption|rewrite E'; cbn; left; eauto|rewrite E'; right; split; [reflexivity|eauto]].
  - right. split; [reflexivity|]. exists x. auto.
Qed.
Lemma write_value_panic v : (exists j, write_value v = Ok j) /\ ~ has_non_finite v \/ write_value v = Panic /\ has_non_finite v.
Proof.
  induction v as [l IH|l IH|n| | |] using value_ind'; cbn; try (left; split; [eauto|inversion 1]; fail).
  - rewrite Forall_forall in IH. destruct (rmap_panic write_value l) as [[l' E]|[E (x & I & Ex)]].
    { intros x I. destruct (IH x I) as [[X _]|[X _]]; auto. }
    + rewrite E. left. split; [cbn; eauto|]. intros C. inversion C as [|? v I Cv|]; subst. apply rmap_ok in E.
      destruct (forall2_in_l _ _ _ _ E I) as (j & _ & Ej). destruct (IH v I) as [[_ X]|[X _]]; [contradiction|congruence].
    + rewrite E. right. split; [reflexivity|]. destruct (IH x I) as [[[j X] _]|[_ X]]; [congruence|]. eapply hn_array; eassumption.
  - rewrite Forall_forall in IH. destruct (rmap_panic (fun kv => j <- write_value (snd kv) ;; Ok (fst kv, j)) l) as [[l' E]|[E (x & I & Ex)]].
    { intros x I. destruct (IH x I) as [[[j X] _]|[X _]]; rewrite X; cbn; eauto. }
    + rewrite E. left. split; [cbn; eauto|]. intros C. inversion C as [| |? k v I Cv]; subst. apply rmap_ok in E.
      destruct (forall2_in_l _ _ _ _ E I) as (j & _ & Ej). destruct (IH _ I) as [[_ X]|[X _]]; cbn in *; [contradiction|]. rewrite X in Ej. discriminate.
    + rewrite E. right. split; [reflexivity|]. destruct (IH x I) as [[[j X] _]|[_ X]]; [rewrite X in Ex; discriminate|]. destruct x as [k v]. eapply hn_object; eassumption.
  - destruct n as [n|b]; [left; split; [eauto|inversion 1]|]. destruct (f64_is_nan b || f64_is_inf b) eqn:E.
    + right. split; [reflexivity|]. constructor. intros [N I]. rewrite N, I in E. discriminate.
    + left. split; [eauto|]. intros C. inversion C as [? X| |]; subst. apply X. apply orb_false_iff in E. exact E.
Qed.

(** ** Writing the entries of a map under textual keys and reading them back in sorted order *)
Lemma map_round {K V W} (keq : K -> K -> bool) (EQ : equivb keq) (wr : K * V -> result (str * json)) (rd : str * json -> result (K * W))
  (R : V -> W -> Prop) (l : list (K * V)) js :
  distinct keq l ->
  Forall2 (fun x y => wr x = Ok y) l js ->
  (forall x y, In x l -> wr x = Ok y -> exists z, rd y = Ok z /\ fst z = fst x /\ R (snd x) (snd z)) ->
  (forall x x' y y', In x l -> In x' l -> wr x = Ok y -> wr x' = Ok y' -> fst y = fst y' -> fst x = fst x') ->
  exists l' zs, Permutation l l' /\ rmap rd (bm_from_list js) = Ok zs
             /\ Forall2 (fun x z => fst x = fst z /\ R (snd x) (snd z)) l' zs /\ distinct keq zs.
Proof.
  intros D F Rd Inj.
  assert (Dj : distinct str_eqb js).
  { clear Rd. induction F as [|[k v] [s j] l js E F IH]; cbn in *; [exact I|]. destruct D as [D1 D2]. split.
    - intros s' j' I. apply str_eqb_neq. intros ->. destruct (forall2_in_r _ _ _ _ F I) as ([k' v'] & I' & E').
      assert (C := D1 k' v' I'). assert (X : k = k') by (apply (Inj (k, v) (k', v') (s, j) (s, j')); auto). subst k'. rewrite (eqv_refl _ EQ) in C. discriminate.
    - apply IH; [exact D2|]. intros x x' y y' I I'. apply Inj; right; assumption. }
  assert (P := bm_from_list_perm js Dj).
  assert (F' : Forall2 (fun y x => wr x = Ok y) js l) by (clear - F; induction F; constructor; auto).
  destruct (perm_forall2 _ _ _ _ P F') as (l' & Pl & Fl).
  assert (Il : forall x, In x l' -> In x l) by (intros x; apply Permutation_in; symmetry; exact Pl).
  assert (Z : exists zs, rmap rd (bm_from_list js) = Ok zs /\ Forall2 (fun x z => fst x = fst z /\ R (snd x) (snd z)) l' zs).
  { clear - Fl Il Rd. generalize dependent (bm_from_list js). intros bs Fl. induction Fl as [|y x bs l' E Fl IH]; [exists []; split; [reflexivity|constructor]|].
    destruct IH as (zs & Ez & Fz); [intros; apply Il; right; assumption|].
    destruct (Rd x y (Il x (or_introl eq_refl)) E) as (z & Er & Ek & Rz). exists (z :: zs). split.
    - cbn. rewrite Er. cbn. rewrite Ez. reflexivity.
    - constructor; [split; [symmetry; exact Ek|exact Rz]|exact Fz]. }
  destruct Z as (zs & Ez & Fz). exists l', zs. split; [exact Pl|]. split; [exact Ez|]. split; [exact Fz|].
  apply (distinct_keys keq l' zs); [|apply (distinct_perm keq EQ _ _ Pl D)]. eapply Forall2_impl; [|exact Fz]. intros x z [E _]. exact E.
Qed.

Lemma sid_read_display i : valid_id i -> sid_from_str (sid_display i) = Ok i.
Proof. intros V. rewrite sid_display_text. apply sid_from_str_complete, V. Qed.
Lemma ident_read n : is_identifier n -> ident_from_str n = Ok n.
Proof. intros V. unfold ident_from_str. apply ident_is_valid_spec in V. rewrite V. reflexivity. Qed.

(** ** Fields of a JSON object *)
Lemma jm_get_bm k l : jm_get k (bm_from_list l) = last_get (lit k) l.
Proof. apply bm_get. Qed.
Lemma last_get_one {V} k k' (v : V) : last_get k [(k', v)] = if str_eqb k' k then Some v else None.
Proof. reflexivity. Qed.
Lemma last_get_opt k k' o : last_get k (opt_field k' o) = if str_eqb (lit k') k then option_map write_reference o else None.
Proof. destruct o; cbn; destruct (str_eqb (lit k') k); reflexivity. Qed.
Definition ids_json (l : list shape_id) : option json := match l with [] => None | _ => Some (JArray (map write_reference l)) end.
Lemma last_get_ids k k' l : last_get k (ids_field k' l) = if str_eqb (lit k') k then ids_json l else None.
Proof. destruct l; cbn; destruct (str_eqb (lit k') k); reflexivity. Qed.

Section WithHasher.
  Context `{Hasher}.

  Lemma append_fresh from : forall ts,
    distinct sid_key_eqb (ts ++ from) -> Forall (fun t => sid_member (fst t) = None) from -> append_traits ts from = (ts ++ from, Ok tt).
  Proof.
    induction from as [|[id v] from IH]; intros ts D M; cbn [append_traits]; [rewrite app_nil_r; reflexivity|].
    inversion M as [|? ? Hm M']; subst. cbn in Hm. unfold apply_with_value. rewrite (proj2 (sid_is_member_false id) Hm).
    assert (N : trait_named id ts = None).
    { unfold trait_named. clear IH. induction ts as [|[k0 v0] ts IHm]; cbn in *; [reflexivity|]. destruct D as [D1 D2].
      rewrite (eqv_sym _ sid_key_equiv), (D1 id v), IHm; auto. apply in_app_iff. right; left; reflexivity. }
    rewrite N. rewrite (hm_insert_fresh sid_key_eqb ts id v N). rewrite IH; rewrite <- ?app_assoc; auto.
  Qed.

  Definition write_trait (t : shape_id * option value) : result (str * json) :=
    j <- match snd t with None => Ok (JObject []) | Some v => write_value v end ;; Ok (sid_display (fst t), j).
  Definition read_trait (kv : str * json) : result (shape_id * option value) :=
    id <- sid_from_str (fst kv) ;; Ok (id, Some (read_value (snd kv))).
  Definition tv_json (v : option value) : option value := Some match v with Some v => v | None => VObject [] end.

  Lemma traits_round ts : traits_ok ts -> traits_writable ts ->
    exists js r, write_traits ts = Ok (JObject js) /\ read_traits js = Ok r /\ reorder_traits (json_traits ts) r
                 /\ append_traits [] r = (r, Ok tt).
  Proof.
    intros [D O] W. assert (Wt : write_traits ts = (l <- rmap write_trait ts ;; Ok (JObject (bm_from_list l)))) by reflexivity. rewrite Wt. clear Wt. destruct (rmap_total write_trait ts) as [l E].
    { unfold traits_writable in W. rewrite Forall_forall in W |- *. intros [id [v|]] I; destruct (W _ I) as [_ F]; cbn in F; unfold write_trait; cbn [fst snd].
      - destruct (write_value_finite v F) as [j ->]. cbn. eauto.
      - cbn. eauto. }
    rewrite E. cbn [rbind]. apply rmap_ok in E.
    unfold traits_writable in W. rewrite Forall_forall in W, O.
    destruct (map_round sid_key_eqb sid_key_equiv write_trait read_trait (fun x z => reorder_trait_value (tv_json x) z) ts l D E) as (ts' & r & P & Er & F & Dr).
    - intros [id v] [s j] I Ew. destruct (W _ I) as [V Fv]. destruct (O _ I) as [_ Ov]. cbn [fst snd] in *.
      apply rbind_ok in Ew as (j' & Ej & Es). injection Es as <- ->. cbn [fst snd] in Ej. exists (id, Some (read_value j)). unfold read_trait. cbn [fst snd].
      rewrite (sid_read_display id V). split; [reflexivity|]. split; [reflexivity|]. cbn. destruct v as [v|].
      + apply write_read_value; assumption.
      + injection Ej as <-. apply rv_same.
    - intros [id v] [id' v'] [s j] [s' j'] I I' Ew Ew' Es. cbn [fst snd] in *. destruct (W _ I) as [V _]. destruct (W _ I') as [V' _]. cbn in V, V'.
      apply rbind_ok in Ew as (? & _ & X). apply rbind_ok in Ew' as (? & _ & X'). injection X as <- _. injection X' as <- _. cbn in Es.
      rewrite !sid_display_text in Es. apply id_text_inj; assumption.
    - exists (bm_from_list l), r. split; [reflexivity|]. assert (Rt : read_traits (bm_from_list l) = (l <- rmap read_trait (bm_from_list l) ;; Ok (hm_from_list sid_key_eqb l))) by reflexivity. rewrite Rt, Er. cbn [rbind].
      rewrite hm_from_list_distinct; [|exact Dr|apply (eqv_sym _ sid_key_equiv)]. split; [reflexivity|]. split.
      + exists (json_traits ts'). split; [apply Permutation_map, P|]. clear - F. induction F as [|x z ts' r [Ek Rv] F IH]; constructor; [split; assumption|exact IH].
      + apply (append_fresh r []); [exact Dr|]. apply Forall_forall. intros z I. destruct (forall2_in_r _ _ _ _ F I) as (x & Ix & Ek & _).
        rewrite <- Ek. apply O. eapply Permutation_in; [symmetry; exact P|exact Ix].
  Qed.

  (** The "traits" entry, when there are traits, and what is read from an object that has it. *)
  Lemma traits_field_round ts : traits_ok ts -> traits_writable ts ->
    exists f, traits_field ts = Ok f /\ Forall (fun e => fst e = lit "traits") f
              /\ forall fs, last_get (lit "traits") fs = last_get (lit "traits") f ->
                 exists r, read_traits_of (bm_from_list fs) = Ok r /\ reorder_traits (json_traits ts) r.
  Proof.
    intros O W. destruct ts as [|t ts]; cbn [traits_field].
    - exists []. split; [reflexivity|]. split; [constructor|]. intros fs E. exists []. unfold read_traits_of. rewrite jm_get_bm, E. cbn.
      split; [reflexivity|]. apply reorder_traits_refl.
    - destruct (traits_round (t :: ts) O W) as (js & r & Ew & Er & R & A). rewrite Ew. cbn [rbind]. eexists. split; [reflexivity|].
      split; [repeat constructor|]. intros fs E. exists r. split; [|exact R]. unfold read_traits_of. rewrite jm_get_bm, E. cbn. rewrite Er. cbn [rbind]. rewrite A. reflexivity.
  Qed.
  Lemma last_get_other {V} k k' (f : list (str * V)) : Forall (fun e => fst e = k') f -> str_eqb k' k = false -> last_get k f = None.
  Proof. intros F N. induction F as [|[k0 v] f E F IH]; cbn in *; [reflexivity|]. subst k0. rewrite IH, N. reflexivity. Qed.

  Lemma member_round m : traits_ok (ms_traits m) -> member_writable m ->
    exists js, write_member m = Ok (JObject js)
      /\ (exists m', read_member (Some (JObject js)) = Ok m' /\ reorder_member (json_map_member m) m')
      /\ (forall n, is_identifier n -> n = ms_id m -> exists m', read_named_member (n, JObject js) = Ok m' /\ reorder_member (json_member m) m').
  Proof.
    intros O [V W]. unfold write_member. destruct (traits_field_round _ O W) as (f & Ef & Fk & Rd). rewrite Ef. cbn [rbind].
    eexists. split; [reflexivity|].
    set (fs := (lit "target", JString (sid_display (ms_target m))) :: f).
    assert (T : last_get (lit "target") fs = Some (JString (sid_display (ms_target m)))).
    { cbn. rewrite (last_get_other _ _ _ Fk) by reflexivity. reflexivity. }
    destruct (Rd fs) as (r & Er & R). { cbn. destruct (last_get _ f); reflexivity. }
    split.
    - exists (MS (lit "member") r (ms_target m)). unfold read_member. rewrite jm_get_bm. change (list_ascii_of_string "target") with (lit "target"). rewrite T.
      rewrite (sid_read_display _ V). cbn [rbind]. rewrite Er. cbn [rbind]. split; [reflexivity|]. repeat split. exact R.
    - intros n Vn ->. exists (MS (ms_id m) r (ms_target m)). unfold read_named_member. cbn [fst snd]. rewrite jm_get_bm, T.
      rewrite (sid_read_display _ V). cbn [rbind]. rewrite (ident_read _ Vn). cbn [rbind]. rewrite Er. cbn [rbind]. split; [reflexivity|]. repeat split. exact R.
  Qed.

  Lemma su_with_members_distinct l : distinct ident_key_eqb (map (fun m => (ms_id m, m)) l) -> su_with_members l = map (fun m => (ms_id m, m)) l.
  Proof.
    intros D. rewrite <- (hm_from_list_distinct ident_key_eqb (map (fun m => (ms_id m, m)) l)) at 1; [|exact D|apply (eqv_sym _ ident_key_equiv)].
    unfold su_with_members, hm_from_list, su_add_member. generalize (@nil (str * member_shape)). clear D. induction l as [|m l IH]; intros acc; cbn; [reflexivity|]. apply IH.
  Qed.

  Definition write_mem (e : str * member_shape) : result (str * json) := j <- write_member (snd e) ;; Ok (ms_id (snd e), j).
  Lemma members_round ms :
    distinct ident_key_eqb ms ->
    Forall (fun e => fst e = ms_id (snd e) /\ is_identifier (fst e) /\ member_writable (snd e)) ms ->
    Forall (fun mb => traits_ok (ms_traits mb)) (map snd ms) ->
    exists f, members_field ms = Ok f /\ Forall (fun e => fst e = lit "members") f
      /\ forall fs, last_get (lit "members") fs = last_get (lit "members") f ->
         exists r, read_members_of (JObject (bm_from_list fs)) = Ok r
                   /\ reordered reorder_member (map (fun e => (fst e, json_member (snd e))) ms) r.
  Proof.
    intros D W T. destruct ms as [|e ms]; cbn [members_field].
    - exists []. split; [reflexivity|]. split; [constructor|]. intros fs E. exists []. unfold read_members_of. cbn [jget]. rewrite jm_get_bm, E. cbn.
      split; [reflexivity|]. exists []. split; constructor.
    - remember (e :: ms) as l eqn:El. clear e ms El. assert (Wm : write_members l = (x <- rmap write_mem l ;; Ok (JObject (bm_from_list x)))) by reflexivity. rewrite Wm. clear Wm.
      rewrite Forall_forall in W, T.
      assert (T' : forall e, In e l -> traits_ok (ms_traits (snd e))) by (intros e I; apply T, in_map, I).
      destruct (rmap_total write_mem l) as [js E].
      { apply Forall_forall. intros e I. destruct (W _ I) as (_ & _ & Wm). destruct (member_round (snd e) (T' _ I) Wm) as (j & Ej & _).
        unfold write_mem. rewrite Ej. cbn. eauto. }
      rewrite E. cbn [rbind]. apply rmap_ok in E.
      destruct (map_round ident_key_eqb ident_key_equiv write_mem (fun kv => m <- read_named_member kv ;; Ok (ms_id m, m))
                  (fun x z => reorder_member (json_member x) z) l js D E) as (l' & r & P & Er & F & Dr).
      + intros [k m] [s j] I Ew. destruct (W _ I) as (Ek & Vn & Wm). cbn [fst snd] in *. destruct (member_round m (T' _ I) Wm) as (o & Eo & _ & Rn).
        unfold write_mem in Ew. cbn [snd] in Ew. rewrite Eo in Ew. cbn in Ew. injection Ew as <- <-.
        destruct (Rn (ms_id m)) as (m' & Em & R); [rewrite <- Ek; exact Vn|reflexivity|]. rewrite Em. exists (ms_id m', m'). split; [reflexivity|]. cbn. split.
        * destruct R as (R & _). rewrite <- R. symmetry. exact Ek.
        * exact R.
      + intros [k m] [k' m'] [s j] [s' j'] I I' Ew Ew' Es. destruct (W _ I) as (Ek & _). destruct (W _ I') as (Ek' & _). cbn [fst snd] in *.
        apply rbind_ok in Ew as (? & _ & X). apply rbind_ok in Ew' as (? & _ & X'). injection X as <- _. injection X' as <- _. congruence.
      + eexists. split; [reflexivity|]. split; [repeat constructor|]. intros fs Ef. exists r. unfold read_members_of. cbn [jget]. rewrite jm_get_bm, Ef. cbn.
        assert (X : rmap read_named_member (bm_from_list js) = Ok (map snd r) /\ r = map (fun m => (ms_id m, m)) (map snd r)).
        { apply rmap_ok in Er. clear - Er. induction Er as [|x z bs r E Er (IH1 & IH2)]; cbn; [split; reflexivity|].
          apply rbind_ok in E as (m & Em & [= <-]). rewrite Em. cbn [rbind]. rewrite IH1. cbn. split; [reflexivity|]. rewrite <- IH2. reflexivity. }
        destruct X as [X1 X2]. rewrite X1. cbn [rbind]. rewrite su_with_members_distinct; [|rewrite <- X2; exact Dr]. rewrite <- X2. split; [reflexivity|].
        exists (map (fun e => (fst e, json_member (snd e))) l'). split; [apply Permutation_map, P|].
        clear - F. induction F as [|x z l' r [Ek Rv] F IH]; constructor; [split; assumption|exact IH].
  Qed.

  Lemma target_round id : valid_id id -> read_target (Some (write_reference id)) = Ok id.
  Proof. intros V. unfold read_target, write_reference, jm_get. cbn. apply sid_read_display, V. Qed.
  Lemma optional_round o : opt_valid o -> read_optional_target (option_map write_reference o) = Ok o.
  Proof. destruct o as [id|]; intros V; cbn [option_map read_optional_target]; [rewrite target_round by exact V|]; reflexivity. Qed.
  Lemma list_round l : Forall valid_id l -> read_target_list (ids_json l) = Ok l.
  Proof.
    intros V. destruct l as [|id l]; [reflexivity|]. unfold ids_json. remember (id :: l) as k eqn:E. clear E. cbn. apply rmap_ok.
    induction V; cbn; constructor; [apply target_round; assumption|assumption].
  Qed.

  Lemma renames_round l : distinct sid_key_eqb l -> Forall (fun e => valid_id (fst e) /\ is_identifier (snd e)) l ->
    exists r, read_renames (match l with [] => None | _ => Some (JObject (bm_from_list (map (fun e => (sid_display (fst e), JString (snd e))) l))) end) = Ok r
              /\ Permutation l r.
  Proof.
    intros D W. destruct l as [|e l]; [exists []; split; [reflexivity|constructor]|]. remember (e :: l) as k eqn:E. clear e l E. rewrite Forall_forall in W.
    destruct (map_round sid_key_eqb sid_key_equiv (fun e => Ok (sid_display (fst e), JString (snd e))) read_rename eq k
                (map (fun e => (sid_display (fst e), JString (snd e))) k) D) as (l' & r & P & Er & F & Dr).
    - clear. induction k; constructor; auto.
    - intros [id n] y I [= <-]. destruct (W _ I) as [V Vn]. cbn in V, Vn. exists (id, n). unfold read_rename. cbn [fst snd].
      rewrite (sid_read_display _ V). cbn [rbind]. rewrite (ident_read _ Vn). repeat split.
    - intros x x' y y' I I' [= <-] [= <-] Es. cbn in Es. destruct (W _ I) as [V _]. destruct (W _ I') as [V' _].
      rewrite !sid_display_text in Es. apply id_text_inj; assumption.
    - unfold read_renames. rewrite Er. cbn [rbind]. rewrite hm_from_list_distinct; [|exact Dr|apply (eqv_sym _ sid_key_equiv)]. exists r. split; [reflexivity|].
      rewrite P. clear - F. assert (X : l' = r); [|subst; reflexivity]. induction F as [|[a b] [c d] l' r [E1 E2] F IH]; [reflexivity|]. cbn in *. congruence.
  Qed.
  Lemma identifiers_round l : distinct ident_key_eqb l -> Forall (fun e => is_identifier (fst e) /\ valid_id (snd e)) l ->
    exists r, read_identifiers (match l with [] => None | _ => Some (JObject (bm_from_list (map (fun e => (fst e, write_reference (snd e))) l))) end) = Ok r
              /\ Permutation l r.
  Proof.
    intros D W. destruct l as [|e l]; [exists []; split; [reflexivity|constructor]|]. remember (e :: l) as k eqn:E. clear e l E. rewrite Forall_forall in W.
    destruct (map_round ident_key_eqb ident_key_equiv (fun e => Ok (fst e, write_reference (snd e))) read_identifier eq k
                (map (fun e => (fst e, write_reference (snd e))) k) D) as (l' & r & P & Er & F & Dr).
    - clear. induction k; constructor; auto.
    - intros [n id] y I [= <-]. destruct (W _ I) as [Vn V]. cbn in V, Vn. exists (n, id). unfold read_identifier. cbn [fst snd].
      rewrite (ident_read _ Vn). cbn [rbind]. rewrite (target_round _ V). repeat split.
    - intros x x' y y' I I' [= <-] [= <-] Es. exact Es.
    - unfold read_identifiers. rewrite Er. cbn [rbind]. rewrite hm_from_list_distinct; [|exact Dr|apply (eqv_sym _ ident_key_equiv)]. exists r. split; [reflexivity|].
      rewrite P. clear - F. assert (X : l' = r); [|subst; reflexivity]. induction F as [|[a b] [c d] l' r [E1 E2] F IH]; [reflexivity|]. cbn in *. congruence.
  Qed.

  (** Looking up an entry of a written shape object: the traits entry does not get in the way. *)
  Lemma jget_fields k tf fs : Forall (fun e => fst e = lit "traits") tf -> str_eqb (lit "traits") (lit k) = false ->
    jget k (JObject (bm_from_list (tf ++ fs))) = last_get (lit k) fs.
  Proof.
    intros F N. cbn [jget]. rewrite jm_get_bm, last_get_app, (last_get_other _ _ _ F N). destruct (last_get (lit k) fs); reflexivity.
  Qed.
  Lemma last_get_cons {V} k k' (v : V) l : last_get k ((k', v) :: l) = match last_get k l with Some w => Some w | None => if str_eqb k' k then Some v else None end.
  Proof. reflexivity. Qed.
  Definition idents_json (l : list (str * shape_id)) : option json :=
    match l with [] => None | _ => Some (JObject (bm_from_list (map (fun e => (fst e, write_reference (snd e))) l))) end.
  Definition renames_json (l : list (shape_id * str)) : option json :=
    match l with [] => None | _ => Some (JObject (bm_from_list (map (fun e => (sid_display (fst e), JString (snd e))) l))) end.
  Lemma last_get_renames k l :
    last_get k (renames_field l)
    = if str_eqb (lit "rename") k then renames_json l else None.
  Proof. destruct l; cbn -[str_eqb lit]; destruct (str_eqb (lit "rename") k); reflexivity. Qed.
  Lemma last_get_idents k l :
    last_get k (identifiers_field l)
    = if str_eqb (lit "identifiers") k then idents_json l else None.
  Proof. destruct l; cbn -[str_eqb lit]; destruct (str_eqb (lit "identifiers") k); reflexivity. Qed.
  Lemma opt_id {A} (o : option A) : match o with Some w => Some w | None => None end = o.
  Proof. destruct o; reflexivity. Qed.

  Lemma simple_round s : simple_from_str (simple_display s) = Ok s.
  Proof. destruct s; reflexivity. Qed.
  Lemma service_new_ok v : v <> [] -> service_new v = Ok (Service v [] [] []).
  Proof. destruct v; [congruence|reflexivity]. Qed.

  Ltac eqs := repeat match goal with |- context [str_eqb (lit ?a) (lit ?b)] =>
      let r := eval vm_compute in (str_eqb (lit a) (lit b)) in change (str_eqb (lit a) (lit b)) with r end; cbv iota.
  Ltac fields := unfold type_field;
    repeat rewrite ?last_get_cons, ?last_get_app, ?last_get_opt, ?last_get_ids, ?last_get_renames, ?last_get_idents;
    change (fun k => @last_get json k []) with (fun _ : str => @None json); eqs; cbn [last_get]; rewrite ?opt_id.
  Ltac lookup F := rewrite (jget_fields "type" _ _ F eq_refl); fields; cbn [last_get]; cbv iota;
    repeat match goal with |- context [simple_from_str (lit ?a)] => let r := eval vm_compute in (simple_from_str (lit a)) in
      change (simple_from_str (lit a)) with r end; eqs; rewrite ?(jget_fields _ _ _ F) by reflexivity; fields.
  Ltac entry fs k v := let E := fresh "L" in assert (E : last_get (lit k) fs = v) by (unfold fs; fields; reflexivity).
  Lemma body_round b : body_ok b -> body_writable b -> Forall (fun mb => traits_ok (ms_traits mb)) (members_of b) ->
    exists fs, write_body b = Ok fs /\ last_get (lit "traits") fs = None
      /\ forall tf, Forall (fun e => fst e = lit "traits") tf ->
         exists b', read_body (JObject (bm_from_list (tf ++ fs))) = Ok b' /\ reorder_body (json_body b) b'.
  Proof.
    intros O W T. destruct b as [s|m|m|k v|ms|ms|s|o|r|]; cbn [body_ok body_writable members_of write_body json_body] in *.
    - eexists. split; [reflexivity|]. split; [reflexivity|]. intros tf F. exists (KSimple s). split; [|apply rb_same].
      unfold read_body. lookup F. cbn -[simple_from_str simple_display]. rewrite simple_round. reflexivity.
    - destruct W as [En W]. inversion T; subst. destruct (member_round m) as (j & Ej & (m' & Em & R) & _); [assumption|assumption|].
      rewrite Ej. cbn [rbind]. eexists. split; [reflexivity|]. split; [reflexivity|]. intros tf F. exists (KList m'). split.
      + unfold read_body. lookup F. cbn -[read_member]. rewrite Em. reflexivity.
      + apply rb_list. destruct R as (R1 & R2 & R3). repeat split; auto. cbn. rewrite En. exact R1.
    - destruct W as [En W]. inversion T; subst. destruct (member_round m) as (j & Ej & (m' & Em & R) & _); [assumption|assumption|].
      rewrite Ej. cbn [rbind]. eexists. split; [reflexivity|]. split; [reflexivity|]. intros tf F. exists (KSet m'). split.
      + unfold read_body. lookup F. cbn -[read_member]. rewrite Em. reflexivity.
      + apply rb_set. destruct R as (R1 & R2 & R3). repeat split; auto. cbn. rewrite En. exact R1.
    - destruct W as [Wk Wv]. inversion T as [|? ? Tk T']; subst. inversion T' as [|? ? Tv _]; subst.
      destruct (member_round k Tk Wk) as (jk & Ejk & (k' & Ek & Rk) & _). destruct (member_round v Tv Wv) as (jv & Ejv & (v' & Ev & Rv) & _).
      rewrite Ejk. cbn [rbind]. rewrite Ejv. cbn [rbind]. eexists. split; [reflexivity|]. split; [reflexivity|]. intros tf F. exists (KMap k' v'). split.
      + unfold read_body. lookup F. cbn -[read_member]. rewrite Ek. cbn [rbind]. rewrite Ev. reflexivity.
      + apply rb_map; assumption.
    - destruct (members_round ms O W T) as (f & Ef & Fk & Rd). rewrite Ef. cbn [rbind]. eexists. split; [reflexivity|]. split.
      { cbn. rewrite (last_get_other _ _ _ Fk); reflexivity. }
      intros tf F. destruct (Rd (tf ++ type_field (lit "structure") :: f)) as (r & Er & R).
      { rewrite last_get_app, (last_get_other _ _ _ F) by reflexivity. cbn. destruct (last_get _ f); reflexivity. }
      exists (KStructure r). split; [|apply rb_structure, R]. unfold type_field in Er. unfold read_body. lookup F. rewrite (last_get_other _ _ _ Fk) by reflexivity. cbv iota.
      change (simple_from_str (lit "structure")) with (@Err simple (EInvalidSimpleShape (lit "structure"))). eqs. rewrite Er. reflexivity.
    - destruct (members_round ms O W T) as (f & Ef & Fk & Rd). rewrite Ef. cbn [rbind]. eexists. split; [reflexivity|]. split.
      { cbn. rewrite (last_get_other _ _ _ Fk); reflexivity. }
      intros tf F. destruct (Rd (tf ++ type_field (lit "union") :: f)) as (r & Er & R).
      { rewrite last_get_app, (last_get_other _ _ _ F) by reflexivity. cbn. destruct (last_get _ f); reflexivity. }
      exists (KUnion r). split; [|apply rb_union, R]. unfold type_field in Er. unfold read_body. lookup F. rewrite (last_get_other _ _ _ Fk) by reflexivity. cbv iota.
      change (simple_from_str (lit "union")) with (@Err simple (EInvalidSimpleShape (lit "union"))). eqs. rewrite Er. reflexivity.
    - destruct W as (Wv & Wo & Wr & Wn). destruct (renames_round _ O Wn) as (rn & En & P). fold (renames_json (sv_renames s)) in En.
      eexists. split; [reflexivity|]. match goal with |- last_get _ ?l = None /\ _ => set (fs := l) end.
      entry fs "type"%string (Some (JString (lit "service"))). entry fs "version"%string (Some (JString (sv_version s))).
      entry fs "operations"%string (ids_json (sv_operations s)). entry fs "resources"%string (ids_json (sv_resources s)).
      entry fs "rename"%string (renames_json (sv_renames s)). entry fs "traits"%string (@None json). clearbody fs. split; [assumption|].
      intros tf F. exists (KService (Service (sv_version s) (sv_operations s) (sv_resources s) rn)). split; [|apply rb_service; repeat split; assumption].
      unfold read_body. rewrite (jget_fields "type" _ _ F eq_refl), L. cbv iota.
      change (simple_from_str (lit "service")) with (@Err simple (EInvalidSimpleShape (lit "service"))). eqs.
      rewrite !(jget_fields _ _ _ F) by reflexivity. rewrite L0. cbv iota.
      rewrite service_new_ok by assumption. cbn [rbind sv_version]. rewrite L1, L2, L3. rewrite !list_round by assumption. cbn [rbind]. rewrite En. reflexivity.
    - destruct W as (Wi & Wo & We).
      eexists. split; [reflexivity|]. match goal with |- last_get _ ?l = None /\ _ => set (fs := l) end.
      entry fs "type"%string (Some (JString (lit "operation"))). entry fs "input"%string (option_map write_reference (op_input o)).
      entry fs "output"%string (option_map write_reference (op_output o)). entry fs "errors"%string (ids_json (op_errors o)).
      entry fs "traits"%string (@None json). clearbody fs. split; [assumption|].
      intros tf F. exists (KOperation o). split; [|apply rb_same]. unfold read_body. rewrite (jget_fields "type" _ _ F eq_refl), L. cbv iota.
      change (simple_from_str (lit "operation")) with (@Err simple (EInvalidSimpleShape (lit "operation"))). eqs.
      rewrite !(jget_fields _ _ _ F) by reflexivity. rewrite L0, L1, L2.
      rewrite !optional_round by assumption. cbn [rbind]. rewrite list_round by assumption. cbn [rbind]. destruct o; reflexivity.
    - destruct W as (Wi & W1 & W2 & W3 & W4 & W5 & W6 & W7 & W8 & W9). destruct (identifiers_round _ O Wi) as (ids & Ei & P). fold (idents_json (rs_identifiers r)) in Ei.
      eexists. split; [reflexivity|]. match goal with |- last_get _ ?l = None /\ _ => set (fs := l) end.
      entry fs "type"%string (Some (JString (lit "resource"))). entry fs "identifiers"%string (idents_json (rs_identifiers r)).
      entry fs "create"%string (option_map write_reference (rs_create r)). entry fs "put"%string (option_map write_reference (rs_put r)).
      entry fs "read"%string (option_map write_reference (rs_read r)). entry fs "update"%string (option_map write_reference (rs_update r)).
      entry fs "delete"%string (option_map write_reference (rs_delete r)). entry fs "list"%string (option_map write_reference (rs_list r)).
      entry fs "operations"%string (ids_json (rs_operations r)). entry fs "collectionOperations"%string (ids_json (rs_collection_operations r)).
      entry fs "resources"%string (ids_json (rs_resources r)). entry fs "traits"%string (@None json). clearbody fs. split; [assumption|].
      intros tf F. exists (KResource (Resource ids (rs_create r) (rs_put r) (rs_read r) (rs_update r) (rs_delete r) (rs_list r)
                                        (rs_operations r) (rs_collection_operations r) (rs_resources r))).
      split; [|apply rb_resource; repeat split; assumption]. unfold read_body. rewrite (jget_fields "type" _ _ F eq_refl), L. cbv iota.
      change (simple_from_str (lit "resource")) with (@Err simple (EInvalidSimpleShape (lit "resource"))). eqs.
      rewrite !(jget_fields _ _ _ F) by reflexivity. rewrite L0, Ei. cbn [rbind].
      rewrite L1, L2, L3, L4, L5, L6, L7, L8, L9. rewrite !optional_round by assumption. cbn [rbind]. rewrite !list_round by assumption. reflexivity.
    - eexists. split; [reflexivity|]. split; [reflexivity|]. intros tf F. exists KUnresolved. split; [|apply rb_same].
      unfold read_body. lookup F. reflexivity.
  Qed.

  (** ** Shapes *)
  Definition shape_writable (s : shape) : Prop :=
    valid_id (ts_id s) /\ traits_writable (ts_traits s) /\ body_writable (ts_body s)
    /\ Forall (fun mb => traits_ok (ms_traits mb)) (members_of (ts_body s)).
  Lemma shape_round s : shape_ok s -> shape_writable s ->
    exists js, write_shape s = Ok (JObject js)
      /\ exists s', read_shape (sid_display (ts_id s), JObject js) = Ok s' /\ reorder_shape (json_shape s) s'.
  Proof.
    intros [OT OB] (V & WT & WB & M). destruct (traits_field_round _ OT WT) as (tf & Et & Ft & Rt).
    destruct (body_round _ OB WB M) as (fs & Eb & Nt & Rb). unfold write_shape. rewrite Et. cbn [rbind]. rewrite Eb. cbn [rbind].
    eexists. split; [reflexivity|]. destruct (Rb tf Ft) as (b' & Er & R). destruct (Rt (tf ++ fs)) as (ts' & Ets & RT).
    { rewrite last_get_app, Nt. reflexivity. }
    exists (Shape (ts_id s) ts' b'). unfold read_shape. cbn [fst snd]. rewrite (sid_read_display _ V). cbn [rbind]. rewrite Er. cbn [rbind].
    rewrite Ets. cbn [rbind]. split; [reflexivity|]. repeat split; assumption.
  Qed.

  Definition write_shape_entry (e : shape_id * shape) : result (str * json) := j <- write_shape (snd e) ;; Ok (sid_display (ts_id (snd e)), j).
  Definition read_shape_entry (kv : str * json) : result (shape_id * shape) := s <- read_shape kv ;; Ok (ts_id s, s).
  Lemma rmap_map {A B C} (f : B -> result C) (g : A -> B) l : rmap f (map g l) = rmap (fun x => f (g x)) l.
  Proof. induction l as [|x l IH]; cbn; [reflexivity|]. rewrite IH. reflexivity. Qed.
  Lemma rmap_post {A B C} (f : A -> result B) (g : B -> C) l : rmap (fun x => y <- f x ;; Ok (g y)) l = (ys <- rmap f l ;; Ok (map g ys)).
  Proof.
    induction l as [|x l IH]; cbn; [reflexivity|]. destruct (f x); cbn; [|reflexivity|reflexivity]. rewrite IH. destruct (rmap f l); reflexivity.
  Qed.

  Lemma shapes_round m : model_ok m -> Forall (fun e => shape_writable (snd e)) (m_shapes m) ->
    exists js ss, write_shapes m = Ok (JObject js) /\ read_shapes (Some (JObject js)) = Ok ss
      /\ reordered reorder_shape (m_shapes (json_image m)) (map (fun s => (ts_id s, s)) ss)
      /\ distinct sid_key_eqb (map (fun s => (ts_id s, s)) ss).
  Proof.
    intros ((K & D & _) & O & _) W. unfold write_shapes, shapes, hm_values. rewrite rmap_map. fold write_shape_entry.
    rewrite Forall_forall in O, W. destruct (rmap_total write_shape_entry (m_shapes m)) as [js E].
    { apply Forall_forall. intros e I. destruct (shape_round (snd e) (O _ I) (W _ I)) as (j & Ej & _). unfold write_shape_entry. rewrite Ej. cbn. eauto. }
    change (rmap (fun x => j <- write_shape (snd x) ;; Ok (sid_display (ts_id (snd x)), j)) (m_shapes m)) with (rmap write_shape_entry (m_shapes m)).
    rewrite E. cbn [rbind]. apply rmap_ok in E.
    destruct (map_round sid_key_eqb sid_key_equiv write_shape_entry read_shape_entry (fun x z => reorder_shape (json_shape x) z) (m_shapes m) js D E) as (l' & zs & P & Ez & F & Dz).
    - intros [k s] [t j] I Ew. destruct (shape_round s (O _ I) (W _ I)) as (j' & Ej & s' & Es & R). unfold write_shape_entry in Ew. cbn [snd] in Ew.
      rewrite Ej in Ew. cbn in Ew. injection Ew as <- <-. unfold read_shape_entry. rewrite Es. cbn. eexists. split; [reflexivity|]. cbn. split; [|exact R].
      destruct R as (R & _). cbn in R. rewrite <- R. symmetry. apply (K _ _ I).
    - intros [k s] [k' s'] [t j] [t' j'] I I' Ew Ew' Et. cbn [fst] in *. apply rbind_ok in Ew as (? & _ & X). apply rbind_ok in Ew' as (? & _ & X').
      injection X as <- _. injection X' as <- _. cbn [snd] in Et. rewrite (proj1 (K _ _ I)), (proj1 (K _ _ I')).
      rewrite !sid_display_text in Et. apply id_text_inj; [apply (W _ I)|apply (W _ I')|exact Et].
    - unfold read_shape_entry in Ez. rewrite rmap_post in Ez. apply rbind_ok in Ez as (ss & Es & [= <-]).
      exists (bm_from_list js), ss. split; [reflexivity|]. split; [exact Es|]. split; [|exact Dz].
      exists (map (fun e => (fst e, json_shape (snd e))) l'). split; [cbn; apply Permutation_map, P|].
      clear - F. generalize dependent (map (fun s => (ts_id s, s)) ss). intros zs F. induction F as [|x z l' zs [Ek R] F IH]; constructor; [split; assumption|exact IH].
  Qed.

  (** ** Filling an empty model with fresh entries *)
  Lemma add_metadata_fresh_eq m k v : metadata_value m k = None -> add_metadata m k v = (set_metadata m (m_metadata m ++ [(k, v)]), Ok None).
  Proof. intros N. unfold add_metadata. rewrite N. rewrite (hm_insert_fresh str_eqb _ k v N). reflexivity. Qed.
  Lemma get_app_distinct {K V} (keq : K -> K -> bool) (SY : forall a b, keq a b = keq b a) (a b : list (K * V)) k v :
    distinct keq (a ++ (k, v) :: b) -> hm_get keq k a = None.
  Proof.
    intros D. induction a as [|[k0 v0] a IH]; cbn in *; [reflexivity|]. destruct D as [D1 D2]. rewrite SY, (D1 k v), IH; auto.
    apply in_app_iff. right; left; reflexivity.
  Qed.
  Lemma merge_metadata_fill l : forall m, distinct str_eqb (m_metadata m ++ l) -> merge_metadata m l = (set_metadata m (m_metadata m ++ l), Ok tt).
  Proof.
    induction l as [|[k v] l IH]; intros m D; cbn [merge_metadata].
    - rewrite app_nil_r. destruct m; reflexivity.
    - rewrite add_metadata_fresh_eq by (apply (get_app_distinct str_eqb str_eqb_sym _ _ _ _ D)). rewrite IH; cbn; rewrite <- app_assoc; [reflexivity|exact D].
  Qed.
  Lemma merge_shapes_fill ss : forall m, distinct sid_key_eqb (m_shapes m ++ map (fun s => (ts_id s, s)) ss) ->
    (forall s, In s ss -> sid_member (ts_id s) <> None -> ts_body s = KUnresolved) ->
    merge_shapes m (map (fun s => (ts_id s, s)) ss) = (set_shapes m (m_shapes m ++ map (fun s => (ts_id s, s)) ss), Ok tt).
  Proof.
    induction ss as [|s ss IH]; intros m D M; cbn [merge_shapes map].
    - rewrite app_nil_r. destruct m; reflexivity.
    - assert (N := get_app_distinct sid_key_eqb (eqv_sym _ sid_key_equiv) _ _ _ _ D).
      assert (A : add_shape m s = (set_shapes m (m_shapes m ++ [(ts_id s, s)]), Ok tt)).
      { unfold add_shape. replace (sid_is_member (ts_id s) && negb (is_unresolved (ts_body s))) with false.
        - unfold model_shape. rewrite N. rewrite (hm_insert_fresh sid_key_eqb _ _ s N). reflexivity.
        - symmetry. destruct (sid_is_member (ts_id s)) eqn:Em; [|reflexivity]. rewrite (M s (or_introl eq_refl)); [reflexivity|].
          intros C. apply sid_is_member_false in C. congruence. }
      rewrite A, IH; cbn [set_shapes m_shapes]; rewrite <- ?app_assoc; [reflexivity|exact D|]. intros s' I. apply M. right; exact I.
  Qed.

  (** ** Metadata *)
  Lemma metadata_round md : distinct str_eqb md -> Forall (fun e => value_ok (snd e)) md -> Forall (fun e => finite_value (snd e)) md ->
    exists f, write_metadata md = Ok f /\ Forall (fun e => fst e = lit "metadata") f
      /\ exists r, read_metadata (last_get (lit "metadata") f) = r /\ reordered reorder_value md r /\ distinct str_eqb r.
  Proof.
    intros D O F. destruct md as [|e md]; cbn [write_metadata].
    - exists []. split; [reflexivity|]. split; [constructor|]. exists []. split; [reflexivity|]. split; [exists []; split; constructor|exact I].
    - remember (e :: md) as l eqn:El. clear e md El. rewrite Forall_forall in O, F.
      assert (W : (l <- rmap (fun e => j <- write_value (snd e) ;; Ok (fst e, j)) l ;; Ok [(lit "metadata", JObject (bm_from_list l))])
                  = (x <- rmap write_entry l ;; Ok [(lit "metadata", JObject (bm_from_list x))])) by reflexivity. rewrite W. clear W.
      destruct (rmap_total write_entry l) as [js E].
      { apply Forall_forall. intros e I. destruct (write_value_finite _ (F _ I)) as [j Ej]. unfold write_entry. rewrite Ej. cbn. eauto. }
      rewrite E. cbn [rbind]. apply rmap_ok in E. eexists. split; [reflexivity|]. split; [repeat constructor|]. eexists. split; [reflexivity|]. cbn.
      destruct (entries_round l js D E) as (l' & P & F' & Ek).
      { intros k v j I Ej. apply write_read_value; [exact (O _ I)|exact (F _ I)|exact Ej]. }
      assert (R : reordered reorder_value l (hm_from_list str_eqb (map read_entry (bm_from_list js)))) by (exists l'; split; assumption).
      split; [exact R|]. apply (reordered_distinct str_eqb str_eqb_equiv _ _ _ D R).
  Qed.

  (** ** Models *)
  Lemma finite_nan_free v : finite_value v -> nan_free v.
  Proof.
    induction v as [l IH|l IH|n| | |] using value_ind'; intros F; inversion F as [? Fl|? Fl| |? [N _]| | |]; subst; constructor; try assumption.
    - rewrite Forall_forall in *. auto.
    - rewrite Forall_forall in *. auto.
  Qed.
  Lemma json_traits_clean ts : traits_ok ts -> traits_writable ts -> traits_ok (json_traits ts) /\ traits_nan_free (json_traits ts).
  Proof.
    intros [D O] W. split; [split|].
    - apply (distinct_keys sid_key_eqb ts); [|exact D]. clear. unfold json_traits. induction ts; constructor; auto.
    - unfold json_traits. apply Forall_map. revert O. apply Forall_impl. intros [id [v|]] [M V]; cbn in *; split; auto. constructor; [exact I|constructor].
    - unfold json_traits, traits_nan_free. apply Forall_map. revert W. apply Forall_impl. intros [id [v|]] [_ V]; cbn in *; [apply finite_nan_free, V|]. constructor; constructor.
  Qed.
  Lemma json_shape_clean s : shape_ok s -> shape_writable s -> shape_clean (json_shape s).
  Proof.
    intros [OT OB] (V & WT & WB & M). destruct (json_traits_clean _ OT WT) as [T N]. split; [split; [exact T|]|split; [exact N|]].
    - destruct s as [id ts b]. cbn in *. destruct b; cbn in *; auto; (eapply (distinct_keys ident_key_eqb); [|exact OB]); clear;
        (match goal with |- Forall2 _ ?l _ => induction l end; constructor; auto).
    - destruct s as [id ts b]. cbn in *.
      assert (X : forall m, member_writable m -> traits_ok (ms_traits m) -> member_ok (json_member m) /\ member_ok (json_map_member m)).
      { intros m [_ Wm] Om. split; exact (json_traits_clean _ Om Wm). }
      rewrite Forall_forall in M. destruct b; cbn in *; auto.
      + constructor; [|constructor]. apply X; [apply WB|apply M; auto].
      + constructor; [|constructor]. apply X; [apply WB|apply M; auto].
      + constructor; [|constructor; [|constructor]]; apply X; try apply WB; apply M; auto.
      + rewrite Forall_forall in WB. apply Forall_forall. intros x I. rewrite map_map in I. apply in_map_iff in I as (e & <- & I). cbn.
        apply X; [apply WB, I|apply M, in_map, I].
      + rewrite Forall_forall in WB. apply Forall_forall. intros x I. rewrite map_map in I. apply in_map_iff in I as (e & <- & I). cbn.
        apply X; [apply WB, I|apply M, in_map, I].
  Qed.
  Lemma json_image_clean m : model_writable m -> model_clean (json_image m).
  Proof.
    intros (((K & D & Dm) & O & Om) & Fm & W). split; [split; [|split]|split].
    - intros k s I. cbn in I. apply in_map_iff in I as ([k' s'] & [= <- <-] & I). destruct (K _ _ I) as [K1 K2]. split; [exact K1|].
      intros C. specialize (K2 C). destruct s' as [id ts b]. cbn in *. rewrite K2. reflexivity.
    - cbn. eapply (distinct_keys sid_key_eqb); [|exact D]. clear. induction (m_shapes m); constructor; auto.
    - exact Dm.
    - cbn. apply Forall_map. rewrite Forall_forall in *. intros e I. cbn. apply json_shape_clean; [exact (O _ I)|exact (W _ I)].
    - cbn. rewrite Forall_forall in *. intros e I. split; [exact (Om _ I)|apply finite_nan_free, (Fm _ I)].
  Qed.

  Lemma model_round m : model_writable m ->
    exists j m', model_to_json m = Ok j /\ read_model j = Ok m' /\ reorder_model (json_image m) m'.
  Proof.
    intros Wm. assert (C := json_image_clean m Wm). destruct Wm as (O & Fm & W).
    destruct (metadata_round (m_metadata m)) as (mf & Em & Fk & md & Erm & Rm & Dm); [apply O|apply O|exact Fm|].
    destruct (shapes_round m O W) as (js & ss & Es & Ers & Rs & Ds).
    unfold model_to_json. rewrite Em. cbn [rbind]. rewrite Es. cbn [rbind]. eexists. exists (Model V10 md (map (fun s => (ts_id s, s)) ss)).
    split; [reflexivity|]. split.
    - cbn [read_model]. rewrite !jm_get_bm, !last_get_cons, !last_get_app, !last_get_one.
      rewrite (last_get_other (lit "smithy") _ _ Fk) by reflexivity. rewrite (last_get_other (lit "shapes") _ _ Fk) by reflexivity.
      change (str_eqb (lit "shapes") (lit "smithy")) with false. change (str_eqb (lit "smithy") (lit "smithy")) with true.
      change (str_eqb (lit "shapes") (lit "metadata")) with false. change (str_eqb (lit "smithy") (lit "metadata")) with false.
      change (str_eqb (lit "shapes") (lit "shapes")) with true. cbv iota. cbn [read_version]. change (version_from_str (version_display (m_version m))) with (Ok V10).
      cbn [rbind]. rewrite opt_id. rewrite Erm. rewrite (merge_metadata_fill md (model_new V10)) by exact Dm. cbv iota. rewrite Ers. cbn [rbind].
      rewrite merge_shapes_fill; [reflexivity|exact Ds|]. intros s I Hm. destruct Rs as (l' & P & F).
      assert (I' : In (ts_id s, s) (map (fun s => (ts_id s, s)) ss)) by (apply in_map_iff; eauto).
      destruct (forall2_in_r _ _ _ _ F I') as ([k0 s0] & I0 & Ek & R). cbn in Ek, R. apply Permutation_sym in P. apply (Permutation_in _ P) in I0.
      destruct C as ((K & _) & _). destruct (K _ _ I0) as [_ K2]. subst k0. specialize (K2 Hm). destruct R as (_ & _ & R). rewrite K2 in R. inversion R. reflexivity.
    - split; [cbn; destruct (m_version m); reflexivity|]. split; [exact Rm|exact Rs].
  Qed.

  Lemma json_traits_valued ts : traits_valued ts -> json_traits ts = ts.
  Proof. intros V. unfold json_traits. induction V as [|[id [v|]] ts N V IH]; cbn in *; [reflexivity|rewrite IH; reflexivity|congruence]. Qed.
  Lemma json_member_valued m : traits_valued (ms_traits m) -> json_member m = m.
  Proof. intros V. unfold json_member. rewrite json_traits_valued by exact V. destruct m; reflexivity. Qed.
  Lemma json_faithful_image m : json_faithful m -> json_image m = m.
  Proof.
    intros F. destruct m as [v md ss]. unfold json_image, json_faithful in *. cbn in *. f_equal. induction F as [|[k [id ts b]] ss (V & NM & VM) F IH]; [reflexivity|].
    cbn in *. rewrite IH. f_equal. f_equal. unfold json_shape. cbn. rewrite json_traits_valued by exact V. f_equal.
    assert (X : forall l : list (str * member_shape), Forall (fun mb => traits_valued (ms_traits mb)) (map snd l) -> map (fun e => (fst e, json_member (snd e))) l = l).
    { clear. induction l as [|[k m] l IH]; intros F; [reflexivity|]. inversion F; subst. cbn in *. rewrite json_member_valued, IH by assumption. reflexivity. }
    destruct b; cbn in *; try reflexivity.
    - inversion VM; subst. rewrite json_member_valued by assumption. reflexivity.
    - inversion VM; subst. rewrite json_member_valued by assumption. reflexivity.
    - exfalso. eapply NM; reflexivity.
    - rewrite X by assumption. reflexivity.
    - rewrite X by assumption. reflexivity.
  Qed.

  (** ** Panics of the writer *)
  (** [settles r P]: [r] succeeds and [P] is false, or it panics and [P] holds. *)
  Definition settles {A} (r : result A) (P : Prop) : Prop := (exists a, r = Ok a) /\ ~ P \/ r = Panic /\ P.
  Lemma settles_bind {A B} (r : result A) (f : A -> result B) P Q : settles r P -> (forall a, settles (f a) Q) -> settles (rbind r f) (P \/ Q).
  Proof.
    intros [[[a ->] NP]|[-> Hp]] F; cbn; [|right; split; [reflexivity|left; exact Hp]].
    destruct (F a) as [[[b E] NQ]|[E HQ]]; [left|right]; split; eauto; tauto.
  Qed.
  Lemma settles_iff {A} (r : result A) P Q : (P <-> Q) -> settles r P -> settles r Q.
  Proof. unfold settles. tauto. Qed.
  Lemma settles_ok {A} (a : A) : settles (Ok a) False.
  Proof. left. split; eauto. Qed.
  Lemma settles_post {A B} (r : result A) (f : A -> B) P : settles r P -> settles (x <- r ;; Ok (f x)) P.
  Proof. intros S. apply (settles_iff _ (P \/ False)); [tauto|]. apply settles_bind; [exact S|intros; apply settles_ok]. Qed.
  Lemma settles_rmap {A B} (f : A -> result B) (P : A -> Prop) l : (forall x, In x l -> settles (f x) (P x)) -> settles (rmap f l) (exists x, In x l /\ P x).
  Proof.
    induction l as [|x l IH]; intros F; cbn.
    - left. split; [eauto|]. intros (? & [] & _).
    - apply (settles_iff _ (P x \/ (exists y, In y l /\ P y) \/ False)).
      + split; [intros [Hp|[(y & I & Hp)|[]]]; eauto|intros (y & [<-|I] & Hp); eauto].
      + apply settles_bind; [apply F; left; reflexivity|]. intros a. apply settles_bind; [apply IH; intros y I; apply F; right; exact I|]. intros. apply settles_ok.
  Qed.
  Lemma settles_value v : settles (write_value v) (has_non_finite v).
  Proof. exact (write_value_panic v). Qed.
  Lemma settles_traits ts : settles (write_traits ts) (traits_non_finite ts).
  Proof.
    unfold write_traits. apply settles_post. eapply settles_iff; [|apply (settles_rmap _ (fun t => match snd t with Some v => has_non_finite v | None => False end))].
    - unfold traits_non_finite. split.
      + intros ([id [v|]] & I & Hp); cbn in Hp; [eauto|destruct Hp].
      + intros (id & v & I & Hp). exists (id, Some v). auto.
    - intros [id [v|]] _; cbn [fst snd]; apply settles_post; [apply settles_value|apply settles_ok].
  Qed.
  Lemma settles_traits_field ts : settles (traits_field ts) (traits_non_finite ts).
  Proof.
    destruct ts as [|t ts]; cbn [traits_field]; [|apply settles_post, settles_traits]. left. split; [eauto|]. intros (? & ? & [] & _).
  Qed.
  Lemma settles_member m : settles (write_member m) (traits_non_finite (ms_traits m)).
  Proof. unfold write_member. apply settles_post, settles_traits_field. Qed.
  Lemma settles_members ms : settles (members_field ms) (exists mb, In mb (map snd ms) /\ traits_non_finite (ms_traits mb)).
  Proof.
    destruct ms as [|e ms]; cbn [members_field].
    - left. split; [eauto|]. intros (? & [] & _).
    - apply settles_post. unfold write_members. apply settles_post. eapply settles_iff; [|apply (settles_rmap _ (fun e => traits_non_finite (ms_traits (snd e))))].
      + split; [intros (x & I & Hp); exists (snd x); split; [apply in_map, I|exact Hp]|]. intros (x & I & Hp). apply in_map_iff in I as (y & <- & I). eauto.
      + intros x _. apply settles_post, settles_member.
  Qed.
  Lemma settles_body b : settles (write_body b) (exists mb, In mb (members_of b) /\ traits_non_finite (ms_traits mb)).
  Proof.
    assert (N : forall l : jmap, settles (Ok l) (exists mb : member_shape, In mb [] /\ traits_non_finite (ms_traits mb))).
    { intros l. left. split; [eauto|]. intros (? & [] & _). }
    destruct b; cbn [write_body members_of]; try apply N.
    - apply settles_post. eapply settles_iff; [|apply settles_member]. split; [intros Hp; eexists; split; [left; reflexivity|exact Hp]|intros (? & [<-|[]] & Hp); exact Hp].
    - apply settles_post. eapply settles_iff; [|apply settles_member]. split; [intros Hp; eexists; split; [left; reflexivity|exact Hp]|intros (? & [<-|[]] & Hp); exact Hp].
    - eapply settles_iff; [|apply settles_bind; [apply settles_member|intros; apply settles_post, settles_member]]. split.
      + intros [Hp|Hp]; eexists; (split; [|exact Hp]); cbn; auto.
      + intros (x & [<-|[<-|[]]] & Hp); auto.
    - apply settles_post, settles_members.
    - apply settles_post, settles_members.
  Qed.
  Lemma settles_shape s : settles (write_shape s) (shape_non_finite s).
  Proof.
    unfold write_shape, shape_non_finite. apply settles_bind; [apply settles_traits_field|]. intros. apply settles_post, settles_body.
  Qed.
  Lemma settles_model m : settles (model_to_json m) (model_non_finite m).
  Proof.
    unfold model_to_json, model_non_finite. apply settles_bind; [|intros; apply settles_post].
    - destruct (m_metadata m) as [|e md]; cbn [write_metadata]; [left; split; [eauto|]; intros (? & ? & [] & _)|].
      apply settles_post. eapply settles_iff; [|apply (settles_rmap _ (fun x => has_non_finite (snd x)))].
      + split; [intros ([k v] & I & Hp); eauto|intros (k & v & I & Hp); exists (k, v); auto].
      + intros x _. apply settles_post, settles_value.
    - unfold write_shapes. apply settles_post. eapply settles_iff; [|apply (settles_rmap _ shape_non_finite)].
      + unfold shapes, hm_values. split.
        * intros (s & I & Hp). apply in_map_iff in I as ([k s'] & <- & I). eauto.
        * intros (k & s & I & Hp). exists s. split; [apply in_map_iff; exists (k, s); auto|exact Hp].
      + intros x _. apply settles_post, settles_shape.
  Qed.

  (** ** Panics of the reader *)
  Lemma rbind_panic {A B} (r : result A) (f : A -> result B) : rbind r f = Panic -> r = Panic \/ exists a, r = Ok a /\ f a = Panic.
  Proof. destruct r; cbn; [eauto|discriminate|auto]. Qed.
  Lemma rmap_panics {A B} (f : A -> result B) l : rmap f l = Panic -> exists x, In x l /\ f x = Panic.
  Proof.
    induction l as [|x l IH]; cbn; [discriminate|]. intros E. apply rbind_panic in E as [E|(y & _ & E)]; [eauto|].
    apply rbind_panic in E as [E|(ys & _ & E)]; [|discriminate]. destruct (IH E) as (z & I & Ez). eauto.
  Qed.
  Lemma ident_from_str_np s : ident_from_str s <> Panic.
  Proof. unfold ident_from_str. destruct (ident_is_valid s); discriminate. Qed.
  Ltac np_step := match goal with
    | E : rbind _ _ = Panic |- _ => apply rbind_panic in E as [E|(? & _ & E)]
    | E : rmap _ _ = Panic |- _ => apply rmap_panics in E as (? & _ & E)
    | E : Ok _ = Panic |- _ => discriminate E
    | E : Err _ = Panic |- _ => discriminate E
    | E : deserialization _ = Panic |- _ => discriminate E
    | E : sid_from_str _ = Panic |- _ => exfalso; exact (sid_from_str_not_panic _ E)
    | E : ident_from_str _ = Panic |- _ => exfalso; exact (ident_from_str_np _ E)
    end.
  Lemma read_traits_of_np m : read_traits_of m <> Panic.
  Proof.
    unfold read_traits_of, read_traits. destruct (jm_get _ m) as [[]|]; try discriminate. intros E. repeat np_step.
    destruct (append_traits [] _) as [ts' [| |]] eqn:A; try discriminate. eapply append_not_panic. rewrite A. reflexivity.
  Qed.
  Lemma read_target_np j : read_target j <> Panic.
  Proof. unfold read_target. destruct j as [[]|]; try discriminate. destruct (jm_get _ _) as [[]|]; try discriminate. apply sid_from_str_not_panic. Qed.
  Lemma read_member_np j : read_member j <> Panic.
  Proof.
    unfold read_member. destruct j as [[]|]; try discriminate. destruct (jm_get _ _) as [[]|]; try discriminate. intros E. repeat np_step.
    exact (read_traits_of_np _ E).
  Qed.
  Lemma read_optional_np j : read_optional_target j <> Panic.
  Proof. unfold read_optional_target. destruct j; [|discriminate]. intros E. repeat np_step. exact (read_target_np _ E). Qed.
  Lemma read_list_np j : read_target_list j <> Panic.
  Proof. unfold read_target_list. destruct j as [[]|]; try discriminate. intros E. repeat np_step. exact (read_target_np _ E). Qed.
  Lemma read_members_np j : read_members_of j <> Panic.
  Proof.
    unfold read_members_of. destruct (jget _ j) as [[]|]; try discriminate. intros E. repeat np_step.
    unfold read_named_member in E. destruct (snd _); try discriminate. repeat np_step.
    - destruct (jm_get _ _) as [[]|]; try discriminate. repeat np_step.
    - exact (read_traits_of_np _ E).
  Qed.
  Lemma read_renames_np j : read_renames j <> Panic.
  Proof.
    unfold read_renames. destruct j as [[]|]; try discriminate. intros E. repeat np_step. unfold read_rename in E. repeat np_step.
    destruct (snd _); try discriminate. repeat np_step.
  Qed.
  Lemma read_identifiers_np j : read_identifiers j <> Panic.
  Proof.
    unfold read_identifiers. destruct j as [[]|]; try discriminate. intros E. repeat np_step. unfold read_identifier in E. repeat np_step.
    exact (read_target_np _ E).
  Qed.
  Ltac np := repeat first [np_step | match goal with
    | E : read_member _ = Panic |- _ => exfalso; exact (read_member_np _ E)
    | E : read_optional_target _ = Panic |- _ => exfalso; exact (read_optional_np _ E)
    | E : read_target_list _ = Panic |- _ => exfalso; exact (read_list_np _ E)
    | E : read_members_of _ = Panic |- _ => exfalso; exact (read_members_np _ E)
    | E : read_renames _ = Panic |- _ => exfalso; exact (read_renames_np _ E)
    | E : read_identifiers _ = Panic |- _ => exfalso; exact (read_identifiers_np _ E)
    end].
  Lemma read_body_panic j : read_body j = Panic <-> empty_version_service j.
  Proof.
    split.
    - unfold read_body. destruct (jget "type" j) as [[| | | |s| |]|] eqn:T; try discriminate. destruct (simple_from_str s) eqn:S; try discriminate;
      (destruct (str_eqb s (lit "apply")); [discriminate|];
       destruct (str_eqb s (lit "list")); [intros E; np|];
       destruct (str_eqb s (lit "set")); [intros E; np|];
       destruct (str_eqb s (lit "map")); [intros E; np|];
       destruct (str_eqb s (lit "structure")); [intros E; np|];
       destruct (str_eqb s (lit "union")); [intros E; np|];
       destruct (str_eqb s (lit "service")) eqn:Es;
       [|destruct (str_eqb s (lit "operation")); [intros E; np|]; destruct (str_eqb s (lit "resource")); [intros E; np|discriminate]];
       destruct (jget "version" j) as [[| | | |v| |]|] eqn:V; try discriminate; intros E; np;
       destruct v; [|discriminate E]; apply str_eqb_eq in Es; subst s;
       destruct j as [| | | | | |o]; try discriminate T; exists o; auto).
    - intros (o & -> & T & V). unfold read_body. cbn [jget]. rewrite T, V. reflexivity.
  Qed.
  Lemma read_shapes_panic j : read_shapes j = Panic -> exists vs k v, j = Some (JObject vs) /\ In (k, v) vs /\ empty_version_service v.
  Proof.
    unfold read_shapes. destruct j as [[]|]; try discriminate. intros E. apply rmap_panics in E as ([k v] & I & E). unfold read_shape in E. cbn [fst snd] in E. np.
    - apply read_body_panic in E. exists l, k, v. auto.
    - destruct v; np. exfalso. exact (read_traits_of_np _ E).
  Qed.
  Lemma not_distinct {K V} (keq : K -> K -> bool) (SY : forall a b, keq a b = keq b a) (l : list (K * V)) :
    distinct keq l \/ exists a k v b k' v' c, l = a ++ (k, v) :: b ++ (k', v') :: c /\ keq k k' = true.
  Proof.
    induction l as [|[k v] l [IH|(a & k1 & v1 & b & k2 & v2 & c & -> & E)]]; [left; exact I| |].
    - destruct (existsb (fun e => keq k (fst e)) l) eqn:X.
      + right. apply existsb_exists in X as ([k' v'] & Hi & E). apply in_split in Hi as (b & c & ->). exists [], k, v, b, k', v', c. auto.
      + left. split; [|exact IH]. intros k' v' Hi. rewrite SY. destruct (keq k k') eqn:E; [|reflexivity]. exfalso.
        assert (Y : existsb (fun e => keq k (fst e)) l = true) by (apply existsb_exists; exists (k', v'); auto). congruence.
    - right. exists ((k, v) :: a), k1, v1, b, k2, v2, c. auto.
  Qed.
  Lemma merge_metadata_np l : forall m, snd (merge_metadata m l) <> Panic.
  Proof.
    induction l as [|[k v] l IH]; intros m0; cbn; [discriminate|].
    unfold add_metadata. destruct (metadata_value m0 k) as [q|]; [|apply IH].
    destruct q, v; try (destruct (value_eqb _ _); [apply IH|discriminate]). apply IH.
  Qed.
  Lemma rmap_split {A B} (f : A -> result B) l a x b y c : rmap f l = Ok (a ++ x :: b ++ y :: c) ->
    exists l1 u l2 v l3, l = l1 ++ u :: l2 ++ v :: l3 /\ f u = Ok x /\ f v = Ok y.
  Proof.
    intros E. apply rmap_ok in E. apply Forall2_app_inv_r in E as (l1 & l' & _ & E & ->). inversion E as [|u ? r ? Eu E']; subst.
    apply Forall2_app_inv_r in E' as (l2 & l'' & _ & E' & ->). inversion E' as [|v ? r ? Ev _]; subst. exists l1, u, l2, v. eauto.
  Qed.
  Lemma read_shape_id kv s : read_shape kv = Ok s -> sid_from_str (fst kv) = Ok (ts_id s).
  Proof.
    unfold read_shape. intros E. apply rbind_ok in E as (id & Ei & E). apply rbind_ok in E as (b & _ & E). apply rbind_ok in E as (ts & _ & [= <-]). exact Ei.
  Qed.
  Lemma read_model_panic j : read_model j = Panic ->
    (exists k v, In (k, v) (shape_entries j) /\ empty_version_service v)
    \/ (exists a k v b k' v' c id id', shape_entries j = a ++ (k, v) :: b ++ (k', v') :: c
          /\ sid_from_str k = Ok id /\ sid_from_str k' = Ok id' /\ sid_eqb id id' = true).
  Proof.
    unfold read_model, shape_entries. destruct j as [| | | | | |vs]; try discriminate. cbn [jget]. intros E. np.
    { unfold read_version in E. destruct (jm_get _ _) as [[]|]; try discriminate. unfold version_from_str in E. destruct (_ || _); discriminate. }
    pose proof (merge_metadata_np (read_metadata (jm_get "metadata" vs)) (model_new x)) as NP.
    destruct (merge_metadata_shapes (read_metadata (jm_get "metadata" vs)) (model_new x)) as [Sh _].
    destruct (merge_metadata _ _) as [m [| |]]; try discriminate; [|exfalso; apply NP; reflexivity]. cbn in Sh. apply rbind_panic in E as [E|(ss & Es & E)].
    { left. apply read_shapes_panic in E as (vs0 & k & v & -> & I & P). exists k, v. auto. }
    right. destruct (not_distinct sid_key_eqb (eqv_sym _ sid_key_equiv) (map (fun s => (ts_id s, s)) ss)) as [D|(a0 & k & s & b & k' & s' & c & Sp & Ek)].
    - exfalso. destruct (merge_shapes m _) as [m' [| |]] eqn:M; try discriminate.
      destruct (merge_shapes_panic (map (fun s => (ts_id s, s)) ss) m D) as (k & s & e & _ & G & _).
      + apply Forall_forall. intros e I. apply in_map_iff in I as (s & <- & _). reflexivity.
      + rewrite M. reflexivity.
      + unfold model_shape in G. rewrite Sh in G. discriminate.
    - apply map_eq_app in Sp as (la & lr & -> & _ & Sp). destruct lr as [|s0 lr]; [discriminate|]. injection Sp as E1 E2 Sp. subst k s.
      apply map_eq_app in Sp as (lb & lr' & -> & _ & Sp). destruct lr' as [|s1 lr']; [discriminate|]. injection Sp as E1 E2 Sp. subst k' s'.
      unfold read_shapes in Es. destruct (jm_get "shapes" vs) as [[]|]; try (destruct la; discriminate Es).
      apply rmap_split in Es as (l1 & [u ju] & l2 & [v jv] & l3 & -> & Eu & Ev). apply read_shape_id in Eu, Ev. cbn in Eu, Ev.
      exists l1, u, ju, l2, v, jv, l3, (ts_id s0), (ts_id s1). repeat split; auto. apply sid_key_eqb_eq, Ek.
  Qed.
End WithHasher.
