From Verif.Model Require Import Assembler.
From Verif.Spec Require Import AssemblerSpec.
From Verif.Proofs Require Import BaseFacts.

Fixpoint bt_sorted {V} (m : list (str * V)) : Prop :=
  match m with
  | [] => True
  | (k, _) :: m' => Forall (fun e => str_cmp k (fst e) = Lt) m' /\ bt_sorted m'
  end.
Lemma cmp_gt_lt a b : str_cmp a b = Gt -> str_cmp b a = Lt.
Proof. rewrite (str_cmp_antisym a b). intros ->. reflexivity. Qed.
Lemma bt_get_low {V} k (m : list (str * V)) : Forall (fun e => str_cmp k (fst e) = Lt) m -> bt_get k m = None.
Proof. destruct m as [|[k' v] m]; intros F; [reflexivity|]. inversion F; subst; cbn in *. rewrite H1. reflexivity. Qed.

Lemma bt_insert_sorted {V} k (v : V) m : bt_sorted m -> bt_sorted (bt_insert k v m).
Proof.
  intros S. induction m as [|[k' v'] m IH]; cbn; [repeat constructor|]. destruct S as [F S].
  destruct (str_cmp k k') eqn:E.
  - cbn. auto.
  - cbn. split; [|auto]. constructor; [exact E|]. revert F. apply Forall_impl. intros [x y] L. cbn in *.
    eapply str_cmp_lt_trans; eauto.
  - cbn. split; [|auto]. clear IH S. apply cmp_gt_lt in E.
    induction m as [|[k2 v2] m IH]; cbn; [repeat constructor; exact E|]. inversion F; subst; cbn in *.
    destruct (str_cmp k k2); repeat constructor; auto.
Qed.
Lemma bt_get_insert {V} k (v : V) m x :
  bt_sorted m -> bt_get x (bt_insert k v m) = if str_eqb k x then Some v else bt_get x m.
Proof.
  intros S. induction m as [|[k' v'] m IH]; cbn.
  - destruct (str_eqb k x) eqn:E.
    + apply str_eqb_eq in E as ->. rewrite str_cmp_refl. reflexivity.
    + destruct (str_cmp x k) eqn:C; try reflexivity. apply str_cmp_eq in C as ->. rewrite str_eqb_refl in E. discriminate.
  - destruct S as [F S]. specialize (IH S). destruct (str_cmp k k') eqn:E; cbn.
    + apply str_cmp_eq in E as ->. destruct (str_eqb k' x) eqn:Q.
      * apply str_eqb_eq in Q as ->. rewrite str_cmp_refl. reflexivity.
      * destruct (str_cmp x k') eqn:C; try reflexivity. apply str_cmp_eq in C as ->. rewrite str_eqb_refl in Q; discriminate.
    + destruct (str_eqb k x) eqn:Q.
      * apply str_eqb_eq in Q as ->. rewrite str_cmp_refl. reflexivity.
      * destruct (str_cmp x k) eqn:C; try reflexivity.
        -- apply str_cmp_eq in C as ->. rewrite str_eqb_refl in Q; discriminate.
        -- rewrite (str_cmp_lt_trans _ _ _ C E). reflexivity.
    + rewrite IH. destruct (str_eqb k x) eqn:Q; [|reflexivity]. apply str_eqb_eq in Q as ->. rewrite E. reflexivity.
Qed.
Lemma bt_remove_incl {V} k (m : list (str * V)) e : In e (bt_remove k m) -> In e m.
Proof.
  induction m as [|[k' v'] m IH]; cbn; [auto|]. destruct (str_cmp k k'); cbn; tauto.
Qed.
Lemma bt_remove_sorted {V} k (m : list (str * V)) : bt_sorted m -> bt_sorted (bt_remove k m).
Proof.
  intros S. induction m as [|[k' v'] m IH]; cbn; [exact I|]. destruct S as [F S].
  destruct (str_cmp k k'); cbn; auto. split; [|auto]. rewrite Forall_forall in *. intros e J. apply F.
  eapply bt_remove_incl; eauto.
Qed.
Lemma bt_get_remove {V} k (m : list (str * V)) x :
  bt_sorted m -> bt_get x (bt_remove k m) = if str_eqb k x then None else bt_get x m.
Proof.
  intros S. induction m as [|[k' v'] m IH]; cbn; [destruct (str_eqb k x); reflexivity|].
  destruct S as [F S]. specialize (IH S). destruct (str_cmp k k') eqn:E; cbn.
  - apply str_cmp_eq in E as ->. destruct (str_eqb k' x) eqn:Q.
    + apply str_eqb_eq in Q as ->. apply bt_get_low, F.
    + destruct (str_cmp x k') eqn:C; try reflexivity.
      * apply str_cmp_eq in C as ->. rewrite str_eqb_refl in Q; discriminate.
      * apply bt_get_low. revert F. apply Forall_impl. intros [a b] L. cbn in *. eapply str_cmp_lt_trans; eauto.
  - destruct (str_eqb k x) eqn:Q; [|reflexivity]. apply str_eqb_eq in Q as ->. rewrite E. reflexivity.
  - rewrite IH. destruct (str_eqb k x) eqn:Q; [|reflexivity]. apply str_eqb_eq in Q as ->. rewrite E. reflexivity.
Qed.
Lemma bt_get_In {V} k (m : list (str * V)) : bt_sorted m -> (In k (map fst m) <-> bt_get k m <> None).
Proof.
  intros S. induction m as [|[k' v'] m IH]; cbn; [tauto|]. destruct S as [F S]. specialize (IH S).
  destruct (str_cmp k k') eqn:E.
  - apply str_cmp_eq in E as ->. split; [discriminate|auto].
  - split; [|congruence]. intros [->|J]; [rewrite str_cmp_refl in E; discriminate|].
    apply IH in J. rewrite bt_get_low in J; [congruence|].
    revert F. apply Forall_impl. intros [a b] L. cbn in *. eapply str_cmp_lt_trans; eauto.
  - rewrite <- IH. split; [|auto]. intros [->|J]; [rewrite str_cmp_refl in E; discriminate|exact J].
Qed.
Lemma bt_sorted_increasing {V} (m : list (str * V)) : bt_sorted m -> increasing (map fst m).
Proof.
  induction m as [|[k v] m IH]; cbn; [auto|]. intros [F S]. split; [|auto].
  destruct m as [|[k' v'] m]; cbn; [exact I|]. inversion F; auto.
Qed.

Definition reg_ok (r : registry) : Prop := bt_sorted (by_extension r) /\ bt_sorted (by_mime_type r).
Lemma insert_all_sorted (ft : file_type) exts : forall m : list (str * file_type), bt_sorted m -> bt_sorted (fold_left (fun m ext => bt_insert (lower ext) ft m) exts m).
Proof. induction exts as [|e l IH]; intros m S; [exact S|]. cbn. apply IH, bt_insert_sorted, S. Qed.
Lemma insert_all_get (ft : file_type) exts x : forall m : list (str * file_type), bt_sorted m ->
  bt_get x (fold_left (fun m ext => bt_insert (lower ext) ft m) exts m)
  = if existsb (fun e => str_eqb (lower e) x) exts then Some ft else bt_get x m.
Proof.
  induction exts as [|e l IH]; intros m S; [reflexivity|]. cbn. rewrite IH by (apply bt_insert_sorted, S).
  rewrite bt_get_insert by exact S. destruct (existsb _ l); [rewrite Bool.orb_true_r; reflexivity|].
  rewrite Bool.orb_false_r. reflexivity.
Qed.
Definition reg_step (r : registry) (o : reg_op) : registry := reg_run [o] r.
Lemma reg_step_ok r o : reg_ok r -> reg_ok (reg_step r o).
Proof.
  intros [A B]. destruct o as [ft e|ft es|e]; cbn; split; cbn; auto using bt_insert_sorted, insert_all_sorted, bt_remove_sorted.
  destruct (ft_mime ft); auto using bt_insert_sorted.
Qed.
Lemma reg_run_app a b r : reg_run (a ++ b) r = reg_run b (reg_run a r).
Proof. apply fold_left_app. Qed.
Lemma reg_run_ok ops : forall r, reg_ok r -> reg_ok (reg_run ops r).
Proof. induction ops as [|o ops IH]; intros r R; [exact R|]. apply (IH (reg_step r o)), reg_step_ok, R. Qed.
Lemma reg_empty_ok : reg_ok reg_empty. Proof. split; exact I. Qed.

Lemma op_dec o e : (exists ft, op_registers o ft e) \/ (op_touches o e /\ forall ft, ~ op_registers o ft e) \/ ~ op_touches o e.
Proof.
  destruct o as [ft x|ft xs|x]; cbn; unfold same_name.
  - destruct (str_eqb (lower x) (lower e)) eqn:E; [apply str_eqb_eq in E; left; eauto|].
    right; right. intros Q. rewrite Q, str_eqb_refl in E. discriminate.
  - destruct (existsb (fun x => str_eqb (lower x) (lower e)) xs) eqn:E.
    + apply existsb_exists in E as (x & I & E). apply str_eqb_eq in E. left; eauto.
    + right; right. intros (x & I & Q). assert (existsb (fun x => str_eqb (lower x) (lower e)) xs = true); [|congruence].
      apply existsb_exists. exists x. rewrite Q, str_eqb_refl. auto.
  - destruct (str_eqb (lower x) (lower e)) eqn:E; [apply str_eqb_eq in E; right; left; auto|].
    right; right. intros Q. rewrite Q, str_eqb_refl in E. discriminate.
Qed.
Lemma registers_touches o ft e : op_registers o ft e -> op_touches o e.
Proof. destruct o; cbn; try tauto; intros [_ Q]; auto. Qed.
(** What one operation does to a lookup. *)
Lemma step_get r o e : reg_ok r ->
  (forall ft, op_registers o ft e -> reg_get (reg_step r o) e = Some ft)
  /\ (op_touches o e -> (forall ft, ~ op_registers o ft e) -> reg_get (reg_step r o) e = None)
  /\ (~ op_touches o e -> reg_get (reg_step r o) e = reg_get r e).
Proof.
  intros [A B]. unfold reg_get. destruct o as [ft x|ft xs|x]; cbn; unfold same_name.
  - rewrite bt_get_insert by exact A. split; [|split].
    + intros f [<- ->]. rewrite str_eqb_refl. reflexivity.
    + intros T N. destruct (N ft). auto.
    + intros N. destruct (str_eqb (lower x) (lower e)) eqn:E; [|reflexivity]. apply str_eqb_eq in E. tauto.
  - rewrite insert_all_get by exact A.
    assert (E : existsb (fun e0 => str_eqb (lower e0) (lower e)) xs = true <-> exists e', In e' xs /\ lower e' = lower e).
    { rewrite existsb_exists. split; intros (y & I & Q); exists y; (split; [exact I|apply str_eqb_eq; exact Q]). }
    split; [|split].
    + intros f [<- Q]. apply E in Q. rewrite Q. reflexivity.
    + intros T N. destruct (N ft). auto.
    + intros N. destruct (existsb _ xs); [|reflexivity]. tauto.
  - rewrite bt_get_remove by exact A. split; [|split].
    + tauto.
    + intros -> _. rewrite str_eqb_refl. reflexivity.
    + intros N. destruct (str_eqb (lower x) (lower e)) eqn:E; [|reflexivity]. apply str_eqb_eq in E. tauto.
Qed.
Lemma step_mime r o t : reg_ok r ->
  (forall ft, op_mime o ft t -> reg_get_by_mime_type (reg_step r o) t = Some ft)
  /\ ((forall ft, ~ op_mime o ft t) -> reg_get_by_mime_type (reg_step r o) t = reg_get_by_mime_type r t).
Proof.
  intros [A B]. unfold reg_get_by_mime_type. destruct o as [ft x|ft xs|x]; cbn; unfold same_name; [|split; tauto|split; tauto].
  destruct (ft_mime ft) as [m|] eqn:M.
  - rewrite bt_get_insert by exact B. split.
    + intros f [<- (t' & E & Q)]. assert (t' = m) by congruence; subst t'. rewrite Q, str_eqb_refl. reflexivity.
    + intros N. destruct (str_eqb (lower m) (lower t)) eqn:E; [|reflexivity]. apply str_eqb_eq in E.
      destruct (N ft). split; [reflexivity|]. exists m; auto.
  - split; [|reflexivity]. intros f [<- (t' & E & Q)]. congruence.
Qed.
Lemma mime_dec o t : (exists ft, op_mime o ft t) \/ (forall ft, ~ op_mime o ft t).
Proof.
  destruct o as [ft x|ft xs|x]; cbn; [|right; tauto|right; tauto].
  destruct (ft_mime ft) as [m|] eqn:M; [|right; intros f (<- & t' & E & _); congruence].
  unfold same_name. destruct (str_eqb (lower m) (lower t)) eqn:E.
  - apply str_eqb_eq in E. left. exists ft. split; [reflexivity|]. exists m. auto.
  - right. intros f (<- & t' & E1 & E2). assert (t' = m) by congruence; subst t'. rewrite E2, str_eqb_refl in E. discriminate.
Qed.

Lemma get_history ops e ft : reg_get (reg_run ops reg_empty) e = Some ft <-> registered_last ops ft e.
Proof.
  induction ops as [|o ops IH] using rev_ind.
  - cbn. split; [discriminate|]. intros (b & o & a & E & _). destruct b; discriminate.
  - rewrite reg_run_app. assert (R := reg_run_ok ops reg_empty reg_empty_ok).
    change (reg_run [o] (reg_run ops reg_empty)) with (reg_step (reg_run ops reg_empty) o).
    destruct (step_get _ o e R) as (S1 & S2 & S3).
    destruct (op_dec o e) as [[f F]|[[T N]|N]].
    + rewrite (S1 f F). split.
      * intros [= ->]. exists ops, o, []. split; [reflexivity|]. split; [exact F|]. intros o' [].
      * intros (b & o' & a & E & Q & L). destruct a as [|z a] using rev_ind.
        -- apply app_inj_tail in E as [_ <-].
           destruct o; cbn in *; try tauto; destruct F as [<- _], Q as [<- _]; reflexivity.
        -- clear IHa. rewrite app_comm_cons, app_assoc in E. apply app_inj_tail in E as [_ <-].
           destruct (L o); [apply in_or_app; right; now left|]. eapply registers_touches; eauto.
    + rewrite (S2 T N). split; [discriminate|]. intros (b & o' & a & E & Q & L). destruct a as [|z a] using rev_ind.
      * apply app_inj_tail in E as [_ <-]. destruct (N _ Q).
      * clear IHa. rewrite app_comm_cons, app_assoc in E. apply app_inj_tail in E as [_ <-].
        destruct (L o); [apply in_or_app; right; now left|]. exact T.
    + rewrite (S3 N), IH. split.
      * intros (b & o' & a & -> & Q & L). exists b, o', (a ++ [o]). split; [rewrite <- app_assoc; reflexivity|].
        split; [exact Q|]. intros x I. apply in_app_or in I as [I|[<-|[]]]; auto.
      * intros (b & o' & a & E & Q & L). destruct a as [|z a] using rev_ind.
        -- apply app_inj_tail in E as [_ <-]. destruct N. eapply registers_touches; eauto.
        -- clear IHa. rewrite app_comm_cons, app_assoc in E. apply app_inj_tail in E as [-> <-].
           exists b, o', a. split; [reflexivity|]. split; [exact Q|]. intros x I. apply L, in_or_app; auto.
Qed.
Lemma mime_history ops t ft : reg_get_by_mime_type (reg_run ops reg_empty) t = Some ft <-> mime_last ops ft t.
Proof.
  induction ops as [|o ops IH] using rev_ind.
  - cbn. split; [discriminate|]. intros (b & o & a & E & _). destruct b; discriminate.
  - rewrite reg_run_app. assert (R := reg_run_ok ops reg_empty reg_empty_ok).
    change (reg_run [o] (reg_run ops reg_empty)) with (reg_step (reg_run ops reg_empty) o).
    destruct (step_mime _ o t R) as (S1 & S3).
    destruct (mime_dec o t) as [[f F]|N].
    + rewrite (S1 f F). split.
      * intros [= ->]. exists ops, o, []. split; [reflexivity|]. split; [exact F|]. intros o' ft' [].
      * intros (b & o' & a & E & Q & L). destruct a as [|z a] using rev_ind.
        -- apply app_inj_tail in E as [_ <-].
           destruct o; cbn in *; try tauto; destruct F as [<- _], Q as [<- _]; reflexivity.
        -- clear IHa. rewrite app_comm_cons, app_assoc in E. apply app_inj_tail in E as [_ <-].
           destruct (L o f); [apply in_or_app; right; now left|]. exact F.
    + rewrite (S3 N), IH. split.
      * intros (b & o' & a & -> & Q & L). exists b, o', (a ++ [o]). split; [rewrite <- app_assoc; reflexivity|].
        split; [exact Q|]. intros x f I. apply in_app_or in I as [I|[<-|[]]]; auto.
      * intros (b & o' & a & E & Q & L). destruct a as [|z a] using rev_ind.
        -- apply app_inj_tail in E as [_ <-]. destruct (N _ Q).
        -- clear IHa. rewrite app_comm_cons, app_assoc in E. apply app_inj_tail in E as [-> <-].
           exists b, o', a. split; [reflexivity|]. split; [exact Q|]. intros x f I. apply L, in_or_app; auto.
Qed.
