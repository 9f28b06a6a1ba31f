(** Facts about histories of calls on the bodies of shapes. *)
From Verif.Model Require Import ShapeApi.
From Verif.Spec Require Import ShapeApiSpec.
From Verif.Proofs Require Import HashMapFacts IdentityFacts FluentFacts.

Definition list_apply (l : list shape_id) (e : list_event) : list shape_id :=
  match e with
  | Replace r => array_set l r
  | Add x => array_add l x
  | Append r => array_append l r
  | Remove x => array_remove sid_eqb l x
  end.
Lemma array_append_app {A} (n : list A) : forall l, array_append l n = l ++ n.
Proof.
  induction n as [|x n IH]; intros l; cbn; [symmetry; apply app_nil_r|]. rewrite IH. unfold array_add.
  rewrite <- app_assoc. reflexivity.
Qed.

Lemma keeps_app P a b k : keeps P (a ++ b) k -> exists k1 k2, k = k1 ++ k2 /\ keeps P a k1 /\ keeps P b k2.
Proof.
  revert k. induction a as [|x a IH]; cbn; intros k K.
  - exists [], k. repeat split; [constructor|exact K].
  - inversion K as [|? ? ? Px K'|? ? ? Px K']; subst; destruct (IH _ K') as (k1 & k2 & -> & A & B).
    + exists (x :: k1), k2. repeat split; [constructor; assumption|exact B].
    + exists k1, k2. repeat split; [constructor 3; assumption|exact B].
Qed.
Lemma keeps_iff (P Q : shape_id -> Prop) l k : (forall x, P x <-> Q x) -> keeps P l k -> keeps Q l k.
Proof.
  intros E K. induction K; [constructor|constructor; [apply E; assumption|assumption]|].
  constructor 3; [rewrite <- E; assumption|assumption].
Qed.
Lemma keeps_all (P : shape_id -> Prop) l : (forall x, P x) -> keeps P l l.
Proof. intros A. induction l; constructor; auto. Qed.
Lemma keeps_none (P : shape_id -> Prop) l : (forall x, ~ P x) -> keeps P l [].
Proof. intros A. induction l; [constructor|constructor 3; auto]. Qed.
Lemma gone_nil x : ~ gone x [].
Proof. intros (e & [] & _). Qed.
Lemma gone_cons x e es : gone x (e :: es) <-> match e with Replace _ => True | Remove y => sid_eqb x y = true | _ => False end \/ gone x es.
Proof.
  split.
  - intros (e' & [<-|I] & G); [left; exact G|right; exists e'; auto].
  - intros [G|(e' & I & G)]; [exists e; split; [left; reflexivity|exact G]|exists e'; split; [right; exact I|exact G]].
Qed.
Lemma keeps_remove es y l k :
  keeps (fun x => ~ gone x es) (array_remove sid_eqb l y) k -> keeps (fun x => ~ gone x (Remove y :: es)) l k.
Proof.
  revert k. induction l as [|x l IH]; cbn [array_remove filter]; intros k K.
  - inversion K; constructor.
  - unfold array_remove in K. cbn [filter] in K. destruct (sid_eqb x y) eqn:E; cbn [negb] in K.
    + constructor 3; [|apply IH; exact K]. rewrite gone_cons. tauto.
    + inversion K as [|? ? ? Px K'|? ? ? Px K']; subst.
      * constructor; [|apply IH; exact K']. rewrite gone_cons. intros [X|X]; [congruence|tauto].
      * constructor 3; [|apply IH; exact K']. rewrite gone_cons. tauto.
Qed.

Lemma survivors_from es : forall l, survivors (Append l :: es) (fold_left list_apply es l).
Proof.
  induction es as [|e es IH]; intros l.
  - cbn. rewrite <- (app_nil_r l) at 2. apply sv_event; [apply keeps_all, gone_nil|constructor].
  - cbn [fold_left]. specialize (IH (list_apply l e)). inversion IH as [|? ? kept rest K S E1 E2]; subst. cbn [brings] in K.
    destruct e as [r|x|r|y]; cbn [list_apply] in *.
    + unfold array_set in K. change (kept ++ rest) with ([] ++ (kept ++ rest)). apply sv_event.
      * apply keeps_none. intros x C. apply C. rewrite gone_cons. tauto.
      * apply sv_event; assumption.
    + unfold array_add in K. destruct (keeps_app _ _ _ _ K) as (k1 & k2 & -> & A & B). rewrite <- app_assoc. apply sv_event.
      * eapply keeps_iff; [|exact A]. intros z. rewrite gone_cons. tauto.
      * apply sv_event; assumption.
    + rewrite array_append_app in K. destruct (keeps_app _ _ _ _ K) as (k1 & k2 & -> & A & B). rewrite <- app_assoc. apply sv_event.
      * eapply keeps_iff; [|exact A]. intros z. rewrite gone_cons. tauto.
      * apply sv_event; assumption.
    + apply sv_event; [apply keeps_remove; exact K|]. change rest with ([] ++ rest). apply sv_event; [constructor|exact S].
Qed.
Lemma survivors_fold es : survivors es (fold_left list_apply es []).
Proof.
  pose proof (survivors_from es []) as S. inversion S as [|? ? kept rest K R E1 E2]; subst. inversion K; subst. exact R.
Qed.
(** There is only one list of survivors. *)
Lemma keeps_fun P l k k' : keeps P l k -> keeps P l k' -> k = k'.
Proof.
  intros K. revert k'. induction K; intros k' K'; inversion K'; subst; try contradiction; auto. f_equal; auto.
Qed.
Lemma survivors_fun es r r' : survivors es r -> survivors es r' -> r = r'.
Proof.
  intros S. revert r'. induction S as [|e later kept rest K S IH]; intros r' S'; inversion S' as [|? ? kept' rest' K' R']; subst; [reflexivity|].
  f_equal; [eapply keeps_fun; eassumption|apply IH; exact R'].
Qed.

(** ** Maps *)
Definition map_apply {K V} (keq : K -> K -> bool) (m : list (K * V)) (e : map_event K V) : list (K * V) :=
  match e with Reset m' => m' | Insert k v => hm_insert keq k v m | Delete k => hm_remove keq k m end.
Lemma latest_app {A} (l l' : list A) : latest (l ++ l') = match latest l' with Some x => Some x | None => latest l end.
Proof. unfold latest. rewrite rev_app_distr. destruct (rev l'); reflexivity. Qed.
Section Maps.
  Context {K V : Type} (keq : K -> K -> bool) (EQ : equivb keq).
  Lemma map_apply_distinct (m : list (K * V)) e : distinct keq m -> real keq e -> distinct keq (map_apply keq m e).
  Proof.
    intros D R. destruct e; cbn in *; [exact R|apply distinct_insert; assumption|apply distinct_remove; assumption].
  Qed.
  Lemma map_fold (es : list (map_event K V)) : Forall (real keq) es ->
    distinct keq (fold_left (map_apply keq) es []) /\ forall k, hm_get keq k (fold_left (map_apply keq) es []) = said keq k es.
  Proof.
    induction es as [|e es IH] using rev_ind; intros R; [split; [exact I|reflexivity]|].
    apply Forall_app in R as [R R1]. apply Forall_inv in R1. destruct (IH R) as [D G]. rewrite fold_left_app. cbn [fold_left].
    split; [apply map_apply_distinct; assumption|]. intros k. unfold said in *. rewrite flat_map_app, latest_app. cbn [flat_map].
    rewrite app_nil_r. specialize (G k). destruct e as [m|k' v|k']; cbn [map_apply word].
    - reflexivity.
    - rewrite (hm_get_insert keq EQ). destruct (keq k' k) eqn:E; [reflexivity|exact G].
    - rewrite (hm_get_remove keq EQ) by exact D. destruct (keq k' k) eqn:E; [reflexivity|exact G].
  Qed.
End Maps.

(** ** Each body after a history *)
Definition is_nil (s : str) : bool := match s with [] => true | _ => false end.
Lemma is_nil_In l : existsb is_nil l = true <-> In [] l.
Proof.
  rewrite existsb_exists. split; [intros (x & I & E); destruct x; [exact I|discriminate]|intros I; exists []; auto].
Qed.
Lemma fold_latest {A} (l : list A) : forall x, latest (x :: l) = Some (fold_left (fun _ y => y) l x).
Proof.
  induction l as [|y l IH]; intros x; [reflexivity|]. change (x :: y :: l) with ([x] ++ (y :: l)). rewrite latest_app, IH. reflexivity.
Qed.
Lemma fold_settled {A} (l : list (option A)) : settled l = fold_left (fun _ y => y) l None.
Proof.
  unfold settled. destruct l as [|x l]; [reflexivity|]. rewrite fold_latest. reflexivity.
Qed.

Section WithHasher.
  Context `{Hasher}.
  Lemma service_run cs : forall s, run service_do s cs
    = if existsb is_nil (m_versions cs) then Panic
      else Ok (Service (fold_left (fun _ y => y) (m_versions cs) (sv_version s))
                       (fold_left list_apply (m_operations cs) (sv_operations s))
                       (fold_left list_apply (m_resources cs) (sv_resources s))
                       (fold_left (map_apply sid_key_eqb) (m_renames cs) (sv_renames s))).
  Proof.
    induction cs as [|c cs IH]; intros s; [destruct s; reflexivity|]. cbn [run].
    destruct c as [v|[l|x|l|x]|x|[l|x|l|x]|x|[m|k v|k]]; cbn [service_do].
    1: destruct v as [|c v]; [reflexivity|cbn [sv_set_version]; rewrite IH; reflexivity].
    all: rewrite IH; try reflexivity.
    - unfold sv_add_operation_shape. cbn [m_operations flat_map]. unfold if_operation, is_operation. destruct (ts_body x); reflexivity.
    - unfold sv_add_resource_shape. cbn [m_resources flat_map]. unfold if_resource, is_resource. destruct (ts_body x); reflexivity.
  Qed.

  Lemma data_kind x : can_be_data x = not_service_shape (ts_body x).
  Proof. unfold can_be_data, not_service_shape. destruct (ts_body x); reflexivity. Qed.
  Lemma operation_run cs : forall o, run operation_do o cs
    = Ok (Operation (fold_left (fun _ y => y) (m_direction Input cs) (op_input o))
                    (fold_left (fun _ y => y) (m_direction Output cs) (op_output o))
                    (fold_left list_apply (m_errors cs) (op_errors o))).
  Proof.
    induction cs as [|c cs IH]; intros o; [destruct o; reflexivity|]. cbn [run].
    destruct c as [[|] x|[|]|[|] x|[l|x|l|x]|x]; cbn [operation_do]; rewrite IH; try reflexivity.
    - unfold op_set_input_shape, m_direction, m_errors. cbn [flat_map direction_eqb andb]. rewrite (data_kind x).
      destruct (not_service_shape (ts_body x)); reflexivity.
    - unfold op_set_output_shape, m_direction, m_errors. cbn [flat_map direction_eqb andb]. rewrite (data_kind x).
      destruct (not_service_shape (ts_body x)); reflexivity.
    - unfold op_add_error_shape, m_direction, m_errors. cbn [flat_map direction_eqb andb]. rewrite (data_kind x).
      destruct (not_service_shape (ts_body x)); reflexivity.
  Qed.

  Lemma resource_run cs : forall r, run resource_do r cs
    = Ok (Resource (fold_left (map_apply ident_key_eqb) (m_identifiers cs) (rs_identifiers r))
                   (fold_left (fun _ y => y) (m_life LCreate cs) (rs_create r))
                   (fold_left (fun _ y => y) (m_life LPut cs) (rs_put r))
                   (fold_left (fun _ y => y) (m_life LRead cs) (rs_read r))
                   (fold_left (fun _ y => y) (m_life LUpdate cs) (rs_update r))
                   (fold_left (fun _ y => y) (m_life LDelete cs) (rs_delete r))
                   (fold_left (fun _ y => y) (m_life LList cs) (rs_list r))
                   (fold_left list_apply (m_group GOperations cs) (rs_operations r))
                   (fold_left list_apply (m_group GCollectionOperations cs) (rs_collection_operations r))
                   (fold_left list_apply (m_group GResources cs) (rs_resources r))).
  Proof.
    induction cs as [|c cs IH]; intros r; [destruct r; reflexivity|]. cbn [run].
    destruct c as [a x|a|a x|g e|g x|e].
    1,2: destruct a; cbn [resource_do]; rewrite IH; reflexivity.
    - unfold m_life, m_identifiers, m_group. cbn [flat_map].
      destruct a; cbn [life_eqb]; cbn [resource_do]; rewrite IH;
        unfold rs_set_create_operation_shape, rs_set_put_operation_shape, rs_set_read_operation_shape,
          rs_set_update_operation_shape, rs_set_delete_operation_shape, rs_set_list_operation_shape, is_operation;
        destruct (ts_body x); reflexivity.
    - destruct g, e; cbn [resource_do]; rewrite IH; reflexivity.
    - unfold m_life, m_identifiers, m_group. cbn [flat_map].
      destruct g; cbn [group_is]; cbn [resource_do]; rewrite IH;
        unfold rs_add_operation_shape, rs_add_collection_operation_shape, rs_add_resource_shape, is_operation, is_resource, if_operation, if_resource;
        destruct (ts_body x); reflexivity.
    - destruct e; cbn [resource_do]; rewrite IH; reflexivity.
  Qed.

  Lemma members_run cs : forall ms, run members_do ms cs = Ok (fold_left (map_apply ident_key_eqb) (m_members cs) ms).
  Proof.
    induction cs as [|c cs IH]; intros ms; [reflexivity|]. cbn [run]. destruct c; cbn [members_do]; rewrite IH; reflexivity.
  Qed.
  Lemma with_members_run l : Ok (su_with_members l) = run members_do [] (map MAMember l).
  Proof.
    rewrite members_run. unfold su_with_members. f_equal. generalize (@nil (str * member_shape)).
    induction l as [|m l IH]; intros ms; [reflexivity|]. cbn. apply IH.
  Qed.
End WithHasher.

(** ** Names of members *)
Lemma named_cong n m x : ident_eqb (ms_id m) n = true -> ident_eqb x (ms_id m) = ident_eqb x n.
Proof.
  intros N. destruct (ident_eqb x n) eqn:E.
  - rewrite ident_eqb_sym in N. eapply ident_eqb_trans; eassumption.
  - destruct (ident_eqb x (ms_id m)) eqn:E'; [|reflexivity]. rewrite (ident_eqb_trans _ _ _ E' N) in E. discriminate.
Qed.
Lemma map_run kn vn cs : forall k v, named kn k -> named vn v ->
    (run map_do (k, v) cs = Panic <-> exists c, In c cs /\ misnamed kn vn c)
    /\ (forall e, run map_do (k, v) cs <> Err e)
    /\ forall kv, run map_do (k, v) cs = Ok kv ->
       latest (k :: keys_set cs) = Some (fst kv) /\ latest (v :: values_set cs) = Some (snd kv)
       /\ named kn (fst kv) /\ named vn (snd kv).
Proof.
  induction cs as [|c cs IH]; intros k v Nk Nv.
  - cbn. split; [split; [discriminate|intros (c & [] & _)]|]. split; [discriminate|]. intros kv E. injection E as <-. auto.
  - cbn [run]. assert (Q : map_do (k, v) c = match c with
        | MKey m => if ident_eqb (ms_id m) kn then Ok (m, v) else Panic
        | MValue m => if ident_eqb (ms_id m) vn then Ok (k, m) else Panic end).
    { destruct c as [m|m]; cbn [map_do map_set_key map_set_value fst snd]; unfold map_set_key, map_set_value; cbn [fst snd];
        [rewrite (named_cong _ _ (ms_id m) Nk)|rewrite (named_cong _ _ (ms_id m) Nv)]; reflexivity. }
    rewrite Q. clear Q.
    assert (Bad : misnamed kn vn c -> (Panic (A := member_shape * member_shape) = Panic <-> exists c', In c' (c :: cs) /\ misnamed kn vn c')
       /\ (forall e, Panic (A := member_shape * member_shape) <> Err e) /\ forall kv, Panic = Ok kv ->
       latest (k :: keys_set (c :: cs)) = Some (fst kv) /\ latest (v :: values_set (c :: cs)) = Some (snd kv)
       /\ named kn (fst kv) /\ named vn (snd kv)).
    { intros B. split; [split; [intros _; exists c; split; [left; reflexivity|exact B]|reflexivity]|]. split; discriminate. }
    assert (Good : ~ misnamed kn vn c -> forall k' v', named kn k' -> named vn v' ->
       latest (k :: keys_set (c :: cs)) = latest (k' :: keys_set cs) -> latest (v :: values_set (c :: cs)) = latest (v' :: values_set cs) ->
       (run map_do (k', v') cs = Panic <-> exists c', In c' (c :: cs) /\ misnamed kn vn c')
    /\ (forall e, run map_do (k', v') cs <> Err e)
    /\ forall kv, run map_do (k', v') cs = Ok kv ->
       latest (k :: keys_set (c :: cs)) = Some (fst kv) /\ latest (v :: values_set (c :: cs)) = Some (snd kv)
       /\ named kn (fst kv) /\ named vn (snd kv)).
    { intros B k' v' Nk' Nv' Lk Lv. destruct (IH k' v' Nk' Nv') as (P & E & G). split; [|split; [exact E|]].
      - rewrite P. split; [intros (x & I & M); exists x; split; [right; exact I|exact M]|].
        intros (x & [<-|I] & M); [contradiction|exists x; auto].
      - intros kv R. rewrite Lk, Lv. apply G, R. }
    destruct c as [m|m]; cbn [misnamed] in Bad, Good; unfold named in Bad, Good at 1.
    + destruct (ident_eqb (ms_id m) kn) eqn:Q; [|apply Bad; congruence]. apply Good; try assumption; try reflexivity; [congruence|].
      rewrite !fold_latest. reflexivity.
    + destruct (ident_eqb (ms_id m) vn) eqn:Q; [|apply Bad; congruence]. apply Good; try assumption; try reflexivity; [congruence|].
      rewrite !fold_latest. reflexivity.
Qed.
