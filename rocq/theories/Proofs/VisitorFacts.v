(** Facts about the visitor. *)
From Verif.Model Require Import Visitor.
From Verif.Spec Require Import VisitorSpec.

Section Walk.
  Context {S E : Type} (v : visitor S E).
  (** The part of [play] that the walk computes. *)
  Fixpoint run (calls : list call) : @walk S E :=
    match calls with
    | [] => done
    | c :: calls' => then_ (answer v c) (run calls')
    end.
  Lemma play_run calls : forall s, let '(_, s', r) := play v calls s in run calls s = (s', r).
  Proof.
    induction calls as [|c calls IH]; intros s; cbn; [reflexivity|]. unfold then_. destruct (answer v c s) as [s1 [e|]]; [reflexivity|].
    specialize (IH s1). destruct (play v calls s1) as [[seen s2] r]. exact IH.
  Qed.
  Lemma run_app a b s : run (a ++ b) s = then_ (run a) (run b) s.
  Proof.
    revert s. induction a as [|c a IH]; intros s; cbn; [reflexivity|]. unfold then_ in *. destruct (answer v c s) as [s' [e|]]; [reflexivity|]. apply IH.
  Qed.
  Lemma then_ext (a a' b b' : @walk S E) : (forall s, a s = a' s) -> (forall s, b s = b' s) -> forall s, then_ a b s = then_ a' b' s.
  Proof. intros A B s. unfold then_. rewrite A. destruct (a' s) as [s' [e|]]; [reflexivity|apply B]. Qed.
  Lemma run_one c s : run [c] s = answer v c s.
  Proof. cbn. unfold then_, done. destruct (answer v c s) as [s' [e|]]; reflexivity. Qed.
  Lemma run_for_each {A} (f : A -> walk) (g : A -> list call) l :
    (forall x s, f x s = run (g x) s) -> forall s, for_each f l s = run (flat_map g l) s.
  Proof.
    intros F. induction l as [|x l IH]; intros s; cbn; [reflexivity|]. rewrite run_app. apply then_ext; [apply F|exact IH].
  Qed.
  Lemma run_links id n l s : for_each (visit_target v id n) l s = run (map (fun l => CMember id (fst (fst l)) (snd (fst l)) (snd l)) (links n l)) s.
  Proof.
    rewrite (run_for_each _ (fun t => [CMember id (lit n) t None])).
    - f_equal. induction l as [|x l IH]; cbn; [reflexivity|]. f_equal. exact IH.
    - intros x s'. rewrite run_one. reflexivity.
  Qed.
  Lemma run_opt id n o s : if_some o (visit_target v id n) s = run (map (fun l => CMember id (fst (fst l)) (snd (fst l)) (snd l)) (opt_link n o)) s.
  Proof. destruct o; cbn [if_some opt_link map fst snd]; [rewrite run_one|]; reflexivity. Qed.
  Lemma run_mems id (ms : members) s : for_each (visit_member v id) (hm_values ms) s
    = run (map (fun l => CMember id (fst (fst l)) (snd (fst l)) (snd l)) (map (fun e : str * member_shape => member_link (snd e)) ms)) s.
  Proof.
    rewrite (run_for_each _ (fun m => [CMember id (ms_id m) (ms_target m) (Some (ms_traits m))])).
    - f_equal. unfold hm_values. induction ms as [|x l IH]; cbn; [reflexivity|]. f_equal. exact IH.
    - intros x s'. rewrite run_one. reflexivity.
  Qed.

  Lemma visit_shape_run sh s :
    visit_shape v sh s = run (shape_call sh :: if has_members v then member_calls sh else []) s.
  Proof.
    unfold visit_shape, shape_call, member_calls, with_members. destruct (ts_body sh) as [b|m|m|k w|ms|ms|b|b|b|]; cbn [shape_links run].
    1: destruct (has_members v); cbn; rewrite <- run_one; reflexivity.
    9: destruct (has_members v); cbn; rewrite <- run_one; reflexivity.
    all: apply then_ext; [reflexivity|intros s'; destruct (has_members v); [|reflexivity]].
    - cbn [map member_link fst snd]. rewrite run_one. reflexivity.
    - cbn [map member_link fst snd]. rewrite run_one. reflexivity.
    - cbn [map member_link fst snd]. cbn [run]. apply then_ext; [reflexivity|]. intros s''. unfold visit_member. rewrite <- run_one. reflexivity.
    - apply run_mems.
    - apply run_mems.
    - rewrite map_app, run_app. apply then_ext; apply run_links.
    - rewrite !map_app, run_app. apply then_ext; [apply run_opt|]. intros. rewrite run_app. apply then_ext; [apply run_opt|apply run_links].
    - rewrite !map_app. repeat (rewrite run_app; apply then_ext; [first [apply run_opt|apply run_links]|intros]). apply run_links.
  Qed.

  Lemma walk_model_run m s : walk_model m v s = run (expected_calls (has_members v) m) s.
  Proof.
    unfold walk_model, expected_calls. rewrite run_app. apply then_ext; clear s; intros s.
    - rewrite (run_for_each _ (fun kv => [CMetadata (fst kv) (snd kv)])).
      + f_equal; try reflexivity.
      + intros x s'. rewrite run_one. reflexivity.
    - unfold shapes, hm_values. rewrite (run_for_each _ (fun sh => shape_call sh :: if has_members v then member_calls sh else [])).
      + f_equal. induction (m_shapes m) as [|x l IH]; cbn; [reflexivity|]. f_equal. f_equal. exact IH.
      + intros x s'. apply visit_shape_run.
  Qed.
End Walk.

Lemma play_recording {S E} (v : visitor S E) calls : forall l s,
  let '(_, ls, r) := play (recording v) calls (l, s) in
  let '(seen, s', r') := play v calls s in ls = (l ++ seen, s') /\ r = r'.
Proof.
  induction calls as [|c calls IH]; intros l s; cbn.
  - rewrite app_nil_r. auto.
  - destruct (answer v c s) as [s1 [e|]]; cbn; [auto|]. specialize (IH (l ++ [c]) s1).
    destruct (play (recording v) calls (l ++ [c], s1)) as [[seen1 ls] r]. destruct (play v calls s1) as [[seen s2] r'].
    destruct IH as [-> ->]. rewrite <- app_assoc. auto.
Qed.

Lemma filter_shape_expected b m : filter is_shape_call (expected_calls b m) = map (fun e => shape_call (snd e)) (m_shapes m).
Proof.
  unfold expected_calls. rewrite filter_app. replace (filter is_shape_call (map _ (m_metadata m))) with (@nil call).
  - cbn. induction (m_shapes m) as [|e l IH]; cbn [flat_map map]; [reflexivity|]. rewrite filter_app, IH. cbn [filter].
    replace (is_shape_call (shape_call (snd e))) with true by (unfold shape_call; destruct (ts_body (snd e)); reflexivity).
    replace (filter is_shape_call (if b then member_calls (snd e) else [])) with (@nil call); [reflexivity|].
    destruct b; [|reflexivity]. unfold member_calls. induction (shape_links _); [reflexivity|assumption].
  - induction (m_metadata m); [reflexivity|assumption].
Qed.
Lemma filter_metadata_expected b m : filter is_metadata_call (expected_calls b m) = map (fun kv => CMetadata (fst kv) (snd kv)) (m_metadata m).
Proof.
  unfold expected_calls. rewrite filter_app. replace (filter is_metadata_call (flat_map _ (m_shapes m))) with (@nil call).
  - rewrite app_nil_r. induction (m_metadata m) as [|e l IH]; cbn; [reflexivity|]. f_equal. exact IH.
  - induction (m_shapes m) as [|e l IH]; cbn [flat_map]; [reflexivity|]. rewrite filter_app, <- IH, app_nil_r. cbn [filter].
    replace (is_metadata_call (shape_call (snd e))) with false by (unfold shape_call; destruct (ts_body (snd e)); reflexivity).
    destruct b; [|reflexivity]. unfold member_calls. induction (shape_links _); [reflexivity|assumption].
Qed.
