(** Facts about the documentation writer. *)
From Verif.Model Require Import Document.
From Verif.Spec Require Import IdentitySpec ModelSpec ReorderSpec DocumentSpec.
From Verif.Spec Require GraphMLSpec.
From Verif.Proofs Require Import BaseFacts IdentityFacts HashMapFacts ValueFacts ModelFacts LinesFacts.
From Verif.Props Require P01_Identity.
From Coq Require Import Lia.

(** ** Sorting *)
Section SortBy.
  Context {A : Type} (leb : A -> A -> bool).
  Hypothesis total : forall a b, leb a b = true \/ leb b a = true.
  Hypothesis trans : forall a b c, leb a b = true -> leb b c = true -> leb a c = true.
  Lemma insert_by_perm x l : Permutation (x :: l) (insert_by leb x l).
  Proof.
    induction l as [|y l IH]; cbn; [reflexivity|]. destruct (leb x y); [reflexivity|]. rewrite perm_swap. constructor. exact IH.
  Qed.
  Lemma sort_by_perm l : Permutation l (sort_by leb l).
  Proof. induction l as [|x l IH]; cbn; [reflexivity|]. rewrite <- insert_by_perm. constructor. exact IH. Qed.
  Lemma insert_by_sorted x l :
    StronglySorted (fun a b => leb a b = true) l -> StronglySorted (fun a b => leb a b = true) (insert_by leb x l).
  Proof.
    intros S. induction S as [|y l S IH F]; cbn; [repeat constructor|]. destruct (leb x y) eqn:E.
    - constructor; [constructor; assumption|]. constructor; [assumption|]. revert F. apply Forall_impl. intros z. apply trans, E.
    - constructor; [exact IH|]. assert (E' : leb y x = true) by (destruct (total x y); congruence).
      eapply Permutation_Forall; [apply insert_by_perm|]. constructor; assumption.
  Qed.
  Lemma sort_by_sorted l : StronglySorted (fun a b => leb a b = true) (sort_by leb l).
  Proof. induction l as [|x l IH]; cbn; [constructor|]. apply insert_by_sorted, IH. Qed.
End SortBy.

Lemma sid_leb_total a b : sid_leb a b = true \/ sid_leb b a = true.
Proof. unfold sid_leb. rewrite (sid_cmp_antisym a b). destruct (sid_cmp a b); cbn; auto. Qed.
Lemma sid_leb_trans a b c : sid_leb a b = true -> sid_leb b c = true -> sid_leb a c = true.
Proof.
  unfold sid_leb. destruct (sid_cmp a b) eqn:E1; [| |discriminate]; intros _.
  - apply sid_cmp_eq in E1 as ->. auto.
  - destruct (sid_cmp b c) eqn:E2; [| |discriminate]; intros _.
    + apply sid_cmp_eq in E2 as <-. rewrite E1. reflexivity.
    + rewrite (sid_cmp_lt_trans _ _ _ E1 E2). reflexivity.
Qed.
Lemma str_leb_lt a b : str_leb a b = true -> a <> b -> text_before a b.
Proof.
  intros L N. apply P01_Identity.str_cmp_before. unfold str_leb in L.
  destruct (str_cmp a b) eqn:E; [apply str_cmp_eq in E; contradiction|reflexivity|discriminate].
Qed.
Lemma sid_leb_lt a b : sid_leb a b = true -> a <> b -> id_before a b.
Proof.
  intros L N. apply P01_Identity.C06_dictionary_order. unfold sid_leb in L.
  destruct (sid_cmp a b) eqn:E; [apply sid_cmp_eq in E; contradiction|reflexivity|discriminate].
Qed.
(** A sorted list of keys comes from a sorted list of entries. *)
Lemma entries_sorted {K V} (le lt : K -> K -> Prop) (l : list (K * V)) :
  (forall a b, le a b -> a <> b -> lt a b) -> NoDup (map fst l) -> StronglySorted le (map fst l) ->
  StronglySorted (fun a b => lt (fst a) (fst b)) l.
Proof.
  intros R. induction l as [|[k v] l IH]; cbn; intros N S; [constructor|].
  inversion N as [|? ? N1 N2]; subst. inversion S as [|? ? S1 S2]; subst. constructor; [auto|].
  rewrite Forall_forall in *. intros e I. apply R; [apply S2, in_map, I|]. cbn. intros ->. apply N1, in_map, I.
Qed.
Lemma distinct_nodup {K V} (keq : K -> K -> bool) (m : list (K * V)) :
  (forall k, keq k k = true) -> distinct keq m -> NoDup (map fst m).
Proof.
  intros R. induction m as [|[k v] m IH]; cbn; [constructor|]. intros [D1 D2]. constructor; [|auto].
  intros I. apply in_map_iff in I as ([k' v'] & E & I). cbn in E. subst k'. specialize (D1 _ _ I). rewrite R in D1. discriminate.
Qed.
Lemma nodup_perm_map {A B} (f : A -> B) l l' : Permutation l l' -> NoDup (map f l) -> NoDup (map f l').
Proof. intros P. apply Permutation_NoDup, Permutation_map, P. Qed.

Section Facts.
  Context `{Hasher}.
  Variables (f64_str : Z -> str) (safe_label : str -> str -> str).
  Notation trait_value := (trait_value f64_str).
  Notation value_rows := (value_rows f64_str).
  Notation array_rows := (array_rows f64_str).
  Notation object_rows := (object_rows f64_str).

  (** ** Rows of values *)
  Fixpoint items_rows (id : str) (i : nat) (vs : list value) : list trait_row :=
    match vs with
    | [] => []
    | v :: vs' => trait_value id (Some (lit "[" ++ nat_to_str (Z.of_nat i) ++ lit "]")) v ++ items_rows id (S i) vs'
    end.
  Lemma trait_value_array id p v vs : trait_value id p (VArray (v :: vs)) = items_rows id 0 (v :: vs).
  Proof.
    cbn [Document.trait_value items_rows]. f_equal. generalize 1%nat as i. induction vs as [|w vs IH]; intros i; [reflexivity|].
    cbn [items_rows]. f_equal. apply IH.
  Qed.
  Lemma hm_get_mapped {A B} (f : str * A -> B) (l : list (str * A)) k v :
    distinct str_eqb l -> In (k, v) l -> hm_get str_eqb k (map (fun e => (fst e, f e)) l) = Some (f (k, v)).
  Proof.
    induction l as [|[k0 v0] l IH]; [intros _ []|]. intros [D1 D2] [E|I]; cbn [map hm_get fst snd].
    - injection E as -> ->. rewrite str_eqb_refl. reflexivity.
    - specialize (D1 _ _ I). destruct (str_eqb k0 k) eqn:E; [|apply IH; assumption].
      apply str_eqb_eq in E. subst k0. rewrite str_eqb_refl in D1. discriminate.
  Qed.
  Lemma trait_value_rows id v : forall p, value_ok v -> value_rows id p v (map table_row (trait_value id p v)).
  Proof.
    induction v as [l IH|l IH|n|b|s|] using value_ind'; intros p O.
    - destruct l as [|v vs]; [apply vr_empty_array|]. inversion O as [? Fo| | | | |]; subst.
      rewrite trait_value_array. apply vr_array; [discriminate|]. revert IH Fo. clear O. generalize (v :: vs) as l. clear v vs.
      intros l. generalize 0%nat as i. induction l as [|v l IHl]; intros i IH Fo; [constructor|].
      inversion IH; subst. inversion Fo; subst. cbn [items_rows]. rewrite map_app. constructor; auto.
    - destruct l as [|e l0]; [apply vr_empty_object|]. inversion O as [|? D Fo| | | |]; subst.
      assert (N : e :: l0 <> []) by discriminate.
      change (trait_value id p (VObject (e :: l0))) with
        (let rows := map (fun e => (fst e, trait_value id (Some ("."%char :: fst e)) (snd e))) (e :: l0) in
         flat_map (fun k => match hm_get str_eqb k rows with Some r => r | None => [] end) (sort_strings (map fst (e :: l0)))).
      revert IH D Fo N. clear O. generalize (e :: l0) as l. clear e l0. intros l IH D Fo N. cbv zeta.
      destruct (Permutation_map_inv fst l (Permutation_sym (sort_strings_perm (map fst l)))) as (sorted & E & P).
      rewrite E. apply (vr_object _ _ _ _ sorted); [exact N|exact P| |].
      { apply (entries_sorted (fun a b => str_leb a b = true)); [exact str_leb_lt| |].
        - apply (nodup_perm_map fst _ _ P), (distinct_nodup str_eqb); [apply str_eqb_refl|exact D].
        - rewrite <- E. apply sort_strings_ordered. }
      assert (I : forall x, In x sorted -> In x l) by (intros x; apply Permutation_in; symmetry; exact P).
      clear E P N. induction sorted as [|[k v] sorted IHs]; [constructor|]. cbn [map fst flat_map].
      rewrite (hm_get_mapped (fun e => trait_value id (Some ("."%char :: fst e)) (snd e)) l k v D (I _ (or_introl eq_refl))).
      rewrite map_app. rewrite Forall_forall in IH, Fo. constructor.
      + cbn [fst snd]. apply (IH (k, v)); [apply I; left; reflexivity|]. apply (Fo (k, v)), I. left. reflexivity.
      + apply IHs. intros x Ix. apply I. right. exact Ix.
    - destruct n; apply vr_scalar; reflexivity.
    - destruct b; apply vr_scalar; reflexivity.
    - apply vr_scalar; reflexivity.
    - apply vr_none.
  Qed.

  (** ** Rows of traits *)
  Lemma trait_rows_each id v ts rows :
    match v with Some v => value_ok v | None => True end ->
    each_rows f64_str ts rows -> each_rows f64_str ((id, v) :: ts) (map table_row (trait_rows f64_str id v) ++ rows).
  Proof.
    intros O E. unfold trait_rows. change documentation_id with documentation_trait.
    change external_documentation_id with external_documentation_trait. fold (listed id). destruct (listed id) eqn:L.
    - assert (N : (if ns_eqb (sid_ns id) (lit "smithy.api") then sid_name id else sid_display id) = trait_name id).
      { unfold trait_name. rewrite sid_display_text. reflexivity. }
      rewrite N. destruct v as [v|].
      + apply er_value; [exact L|apply trait_value_rows, O|exact E].
      + cbn. apply er_bare; assumption.
    - apply er_hidden; assumption.
  Qed.
  Lemma all_trait_rows_ok (ts : traits) sorted :
    traits_ok ts -> (forall x, In x sorted -> In x ts) ->
    exists rows, all_trait_rows f64_str (map fst sorted) ts = Ok rows /\ each_rows f64_str sorted (map table_row rows).
  Proof.
    intros [D O]. induction sorted as [|[id v] sorted IH]; intros I; cbn [map fst all_trait_rows]; [exists []; split; [reflexivity|constructor]|].
    rewrite (hm_get_In _ sid_key_equiv ts id v D (I _ (or_introl eq_refl))).
    destruct IH as (rows & E & R); [intros x Ix; apply I; right; exact Ix|]. rewrite E. cbn [rbind].
    eexists. split; [reflexivity|]. rewrite map_app. apply trait_rows_each; [|exact R].
    rewrite Forall_forall in O. apply (O (id, v)), I. left. reflexivity.
  Qed.
  Lemma describe_traits_ok ts : traits_ok ts ->
    exists bs rows, describe_traits f64_str ts = Ok bs /\ traits_rows f64_str ts rows
      /\ bs = match rows with [] => [] | _ => [Table [lit "Trait ID"; lit "Path"; lit "Value"] rows] end.
  Proof.
    intros O. unfold describe_traits.
    destruct (Permutation_map_inv fst ts (Permutation_sym (sort_by_perm sid_leb (map fst ts)))) as (sorted & E & P).
    destruct (all_trait_rows_ok ts sorted O) as (rows & Er & R); [intros x; apply Permutation_in; symmetry; exact P|].
    rewrite E, Er. cbn [rbind]. exists (match map table_row rows with [] => [] | _ => [Table [lit "Trait ID"; lit "Path"; lit "Value"] (map table_row rows)] end), (map table_row rows).
    split; [destruct rows; reflexivity|]. split; [|reflexivity]. exists sorted. split; [exact P|]. split; [|exact R].
    apply (entries_sorted (fun a b => sid_leb a b = true)); [exact sid_leb_lt| |].
    - apply (nodup_perm_map fst _ _ P), (distinct_nodup sid_key_eqb); [apply sid_key_equiv|exact (proj1 O)].
    - rewrite <- E. apply sort_by_sorted; [exact sid_leb_total|exact sid_leb_trans].
  Qed.

  (** ** What blocks say *)
  Definition plain_block (b : block) : Prop := match b with Heading Section1 _ _ | Heading Section2 _ _ => False | _ => True end.
  Definition says (bs : list block) p l t mn : Prop :=
    Forall plain_block bs /\ prose bs = p /\ see_also bs = l /\ tables bs = t /\ mentions bs = mn.
  Lemma says_nil : says [] [] [] [] [].
  Proof. repeat split. constructor. Qed.
  Lemma says_app a b p l t mn p' l' t' mn' :
    says a p l t mn -> says b p' l' t' mn' -> says (a ++ b) (p ++ p') (l ++ l') (t ++ t') (mn ++ mn').
  Proof.
    intros (F & E1 & E2 & E3 & E4) (F' & E1' & E2' & E3' & E4'). unfold says, prose, see_also, tables, mentions in *.
    rewrite !flat_map_app. split; [apply Forall_app; auto|]. repeat split; congruence.
  Qed.
  Lemma trait_tables_app l1 t1 l2 t2 :
    trait_tables f64_str l1 t1 -> trait_tables f64_str l2 t2 -> trait_tables f64_str (l1 ++ l2) (t1 ++ t2).
  Proof. intros T1 T2. induction T1; cbn; [exact T2|apply tt_none; auto|apply tt_some; auto]. Qed.

  Definition doc_fine (ts : traits) : bool :=
    match hm_get sid_key_eqb documentation_trait ts with
    | Some (Some (VString _)) | Some None | None => true
    | _ => false
    end.
  Notation describe_documentation := (describe_documentation f64_str).
  Lemma documentation_ok ts : traits_ok ts ->
    if doc_fine ts then
      exists bs t, describe_documentation ts = Ok bs /\ says bs (doc_texts ts) (doc_links f64_str ts) t []
        /\ trait_tables f64_str [ts] t
    else describe_documentation ts = Panic.
  Proof.
    intros O. unfold doc_fine, Document.describe_documentation, doc_texts, doc_links.
    change documentation_id with documentation_trait. change external_documentation_id with external_documentation_trait.
    destruct (describe_traits_ok ts O) as (bt & rows & Et & R & Eb). rewrite Et.
    assert (T : exists t, says bt [] [] t [] /\ trait_tables f64_str [ts] t).
    { subst bt. destruct rows as [|r rows].
      - exists []. split; [apply says_nil|]. apply tt_none; [exact R|constructor].
      - exists [r :: rows]. split; [repeat split; repeat constructor|]. apply tt_some; [exact R|discriminate|constructor]. }
    destruct T as (t & St & Tt).
    set (links := match hm_get sid_key_eqb external_documentation_trait ts with Some (Some (VObject ((k, v) :: vs))) => _ | _ => [] end).
    set (wanted := match hm_get sid_key_eqb external_documentation_trait ts with Some (Some (VObject (e :: vs))) => _ | _ => [] end).
    assert (L : says links [] wanted [] []).
    { subst links wanted. destruct (hm_get _ _ ts) as [[[|[|[k v] vs]| | | |]|]|]; try apply says_nil.
      split; [constructor; [exact Logic.I|constructor]|]. split; [reflexivity|]. split; [|split; [reflexivity|]].
      - unfold see_also. cbn [flat_map map app fst snd]. f_equal. f_equal.
        induction vs as [|e vs IH]; [reflexivity|]. cbn [flat_map map app]. f_equal. exact IH.
      - unfold mentions. cbn [flat_map mentions1 mentioned map app].
        induction vs as [|e vs IH]; [reflexivity|]. cbn [flat_map map app mentioned]. exact IH. }
    clearbody links wanted.
    assert (F : forall doc texts, says doc texts [] [] [] ->
              exists bs t, Ok (doc ++ links ++ bt) = @Ok (list block) bs /\ says bs texts wanted t [] /\ trait_tables f64_str [ts] t).
    { intros doc texts Sd. exists (doc ++ links ++ bt), t. split; [reflexivity|]. split; [|exact Tt].
      pose proof (says_app _ _ _ _ _ _ _ _ _ _ Sd (says_app _ _ _ _ _ _ _ _ _ _ L St)) as Q.
      cbn [app] in Q. rewrite !app_nil_r in Q. exact Q. }
    assert (Sn : says [] [] [] [] []) by apply says_nil.
    destruct (hm_get _ _ ts) as [[[| | | |s|]|]|]; cbn [rbind]; try reflexivity; auto.
    apply F. repeat split. repeat constructor.
  Qed.

  (** ** Shapes *)
  Notation shape_link := (shape_link safe_label).
  Notation refer := (refer safe_label).
  Lemma link_refer id t : sid_member id = None -> shape_link id t = refer id t.
  Proof.
    intros N. unfold Document.shape_link, DocumentSpec.refer. destruct (ns_eqb _ _); [|rewrite sid_display_text; reflexivity].
    rewrite N. reflexivity.
  Qed.
  Lemma mentioned_refer id t : mentioned (refer id t) = [refer id t].
  Proof. unfold DocumentSpec.refer. destruct (ns_eqb _ _); reflexivity. Qed.
  Lemma mentions_links id l : sid_member id = None -> flat_map (flat_map mentioned) (links safe_label id l) = map (refer id) l.
  Proof.
    intros N. induction l as [|t l IH]; [reflexivity|]. cbn [links map flat_map]. rewrite (link_refer _ _ N), mentioned_refer.
    cbn [app]. f_equal. exact IH.
  Qed.
  Lemma quoted_says title items : says (quoted_list title items) [] [] [] (flat_map (flat_map mentioned) items).
  Proof.
    unfold quoted_list. destruct items as [|i items]; [apply says_nil|]. repeat split; [repeat constructor|].
    unfold mentions. cbn [flat_map mentions1]. rewrite !app_nil_r. reflexivity.
  Qed.
  Lemma says_sum bs p l t mn p' l' t' mn' : says bs p l t mn -> p = p' -> l = l' -> t = t' -> mn = mn' -> says bs p' l' t' mn'.
  Proof. intros S -> -> -> ->. exact S. Qed.

  Lemma members_says id ms : sid_member id = None -> Forall (fun mb => traits_ok (ms_traits mb)) ms ->
    if forallb (fun mb => doc_fine (ms_traits mb)) ms then
      exists a b t, describe_members f64_str safe_label id ms = Ok (a, b)
        /\ says a (flat_map doc_texts (map ms_traits ms)) (flat_map (doc_links f64_str) (map ms_traits ms)) t []
        /\ trait_tables f64_str (map ms_traits ms) t
        /\ flat_map mentions1 b = flat_map (fun mb => named_refer safe_label id (ms_id mb) (ms_target mb)) ms
    else describe_members f64_str safe_label id ms = Panic.
  Proof.
    intros N. induction ms as [|mb ms IH]; intros F; cbn [forallb describe_members].
    - exists [], [], []. split; [reflexivity|]. split; [apply says_nil|]. split; [constructor|reflexivity].
    - inversion F as [|? ? O F']; subst. specialize (IH F'). pose proof (documentation_ok _ O) as D.
      destruct (doc_fine (ms_traits mb)); cbn [andb]; [|rewrite D; reflexivity]. destruct D as (d & t & -> & Sd & Td). cbn [rbind].
      destruct (forallb _ ms); [|rewrite IH; reflexivity]. destruct IH as (a & b & t' & -> & Sa & Ta & Mb). cbn [rbind fst snd].
      exists (d ++ a). eexists. exists (t ++ t'). split; [reflexivity|].
      split; [exact (says_app _ _ _ _ _ _ _ _ _ _ Sd Sa)|]. split; [exact (trait_tables_app _ _ _ _ Td Ta)|].
      cbn [flat_map mentions1]. rewrite Mb, (link_refer _ _ N). cbn [mentioned app flat_map]. rewrite mentioned_refer. reflexivity.
  Qed.

  Definition members_fine (s : shape) : bool := forallb (fun mb => doc_fine (ms_traits mb)) (members_of (ts_body s)).
  Lemma para_says l : (forall s, l <> [Plain s]) -> (forall s u c l', l <> Plain s :: External u c :: l') ->
    says [Paragraph l] [] [] [] (flat_map mentioned l).
  Proof.
    intros N1 N2. split; [repeat constructor|]. unfold prose, see_also, tables, mentions. cbn [flat_map mentions1]. rewrite !app_nil_r.
    repeat split.
    - destruct l as [|[] [|]]; try reflexivity. exfalso. eapply N1. reflexivity.
    - destruct l as [|[] [|[] ]]; try reflexivity. exfalso. eapply N2. reflexivity.
  Qed.
  Lemma quote_says bs : says [Quote bs] [] [] [] (flat_map mentions1 bs).
  Proof. split; [repeat constructor|]. repeat split. unfold mentions. cbn [flat_map mentions1]. apply app_nil_r. Qed.
  Lemma quoted_link_says id b t : sid_member id = None ->
    says [Quote [Paragraph [Bold b; Plain (lit ": "); shape_link id t]]] [] [] [] [refer id t].
  Proof.
    intros N. eapply says_sum; [apply quote_says|reflexivity..|]. cbn [flat_map mentions1 mentioned app].
    rewrite (link_refer _ _ N), mentioned_refer. reflexivity.
  Qed.
  Lemma service_says id sv : sid_member id = None ->
    says (describe_service safe_label id sv) [] [] []
      (map (refer id) (sv_operations sv) ++ map (refer id) (sv_resources sv)
       ++ flat_map (fun e => [Code (id_text (fst e)); Code (snd e)]) (sv_renames sv)).
  Proof.
    intros N. unfold describe_service. eapply says_sum.
    - apply says_app; [apply para_says; discriminate|]. apply says_app; [apply quoted_says|]. apply says_app; apply quoted_says.
    - reflexivity.
    - reflexivity.
    - reflexivity.
    - cbn [flat_map mentioned app]. rewrite !(mentions_links _ _ N). do 2 f_equal.
      induction (sv_renames sv) as [|e l IH]; [reflexivity|]. cbn [map flat_map mentioned app]. rewrite IH, sid_display_text. reflexivity.
  Qed.
  Lemma operation_says id o : sid_member id = None ->
    says (describe_operation safe_label id o) [] [] []
      (map (refer id) (GraphMLSpec.maybe (op_input o) ++ GraphMLSpec.maybe (op_output o) ++ op_errors o)).
  Proof.
    intros N. unfold describe_operation. rewrite !map_app.
    apply (says_app _ _ [] [] [] _ [] [] []); [|apply (says_app _ _ [] [] [] _ [] [] [])].
    - destruct (op_input o); [apply quoted_link_says, N|apply says_nil].
    - destruct (op_output o); [apply quoted_link_says, N|apply says_nil].
    - destruct (op_errors o) as [|e es]; [apply says_nil|]. eapply says_sum; [apply quote_says|reflexivity..|].
      cbn [flat_map mentions1 mentioned app]. rewrite app_nil_r. apply (mentions_links _ (e :: es) N).
  Qed.
  Lemma lifecycle_mentions id n o : sid_member id = None ->
    flat_map (flat_map mentioned) (lifecycle_item safe_label id n o) = match o with Some t => named_refer safe_label id n t | None => [] end.
  Proof.
    intros N. destruct o as [t|]; [|reflexivity]. cbn [lifecycle_item flat_map mentioned app].
    rewrite (link_refer _ _ N), mentioned_refer. reflexivity.
  Qed.
  Lemma resource_says s r : sid_member (ts_id s) = None -> ts_body s = KResource r ->
    says (describe_resource safe_label (ts_id s) r) [] [] [] (expected_mentions safe_label s).
  Proof.
    intros N E. unfold describe_resource, expected_mentions. rewrite E. eapply says_sum.
    - repeat (apply says_app; [apply quoted_says|]). apply quoted_says.
    - reflexivity.
    - reflexivity.
    - reflexivity.
    - rewrite !flat_map_app, !(mentions_links _ _ N), !(lifecycle_mentions _ _ _ N), !map_app, <- !app_assoc. reflexivity.
  Qed.

  Lemma body_says s : sid_member (ts_id s) = None -> Forall (fun mb => traits_ok (ms_traits mb)) (members_of (ts_body s)) ->
    if members_fine s then
      exists bs t, describe_body f64_str safe_label s = Ok bs
        /\ says bs (flat_map doc_texts (map ms_traits (members_of (ts_body s))))
               (flat_map (doc_links f64_str) (map ms_traits (members_of (ts_body s)))) t (expected_mentions safe_label s)
        /\ trait_tables f64_str (map ms_traits (members_of (ts_body s))) t
    else describe_body f64_str safe_label s = Panic.
  Proof.
    intros N F.
    assert (One : forall b mb, ts_body s = b -> members_of b = [mb] -> expected_mentions safe_label s = [refer (ts_id s) (ms_target mb)] ->
      traits_ok (ms_traits mb) ->
      if doc_fine (ms_traits mb) && true then
        exists bs t, describe_list_or_set f64_str safe_label (ts_id s) mb = Ok bs
          /\ says bs (flat_map doc_texts (map ms_traits [mb])) (flat_map (doc_links f64_str) (map ms_traits [mb])) t (expected_mentions safe_label s)
          /\ trait_tables f64_str (map ms_traits [mb]) t
      else describe_list_or_set f64_str safe_label (ts_id s) mb = Panic).
    { intros b mb Eb Em X O. pose proof (documentation_ok _ O) as D. unfold describe_list_or_set.
      destruct (doc_fine _); cbn [andb]; [|rewrite D; reflexivity]. destruct D as (d & t & -> & Sd & Td). cbn [rbind].
      eexists. exists t. split; [reflexivity|]. split; [|exact Td]. eapply says_sum.
      - apply (says_app [_] d); [apply para_says; discriminate|exact Sd].
      - cbn. rewrite app_nil_r. reflexivity.
      - cbn. rewrite app_nil_r. reflexivity.
      - reflexivity.
      - rewrite X, (link_refer _ _ N). cbn [flat_map mentioned app]. rewrite mentioned_refer. reflexivity. }
    assert (Many : forall ms, Forall (fun mb => traits_ok (ms_traits mb)) (map snd ms) ->
      expected_mentions safe_label s = flat_map (fun e => named_refer safe_label (ts_id s) (ms_id (snd e)) (ms_target (snd e))) ms ->
      if forallb (fun mb => doc_fine (ms_traits mb)) (map snd ms) then
        exists bs t, describe_structure_or_union f64_str safe_label (ts_id s) ms = Ok bs
          /\ says bs (flat_map doc_texts (map ms_traits (map snd ms))) (flat_map (doc_links f64_str) (map ms_traits (map snd ms))) t
               (expected_mentions safe_label s)
          /\ trait_tables f64_str (map ms_traits (map snd ms)) t
      else describe_structure_or_union f64_str safe_label (ts_id s) ms = Panic).
    { intros ms O X. pose proof (members_says (ts_id s) (map snd ms) N O) as D. unfold describe_structure_or_union.
      destruct ms as [|e ms]; [exists [], []; split; [reflexivity|]; rewrite X; split; [apply says_nil|constructor]|].
      change (hm_values (e :: ms)) with (map snd (e :: ms)).
      destruct (forallb _ _); [|rewrite D; reflexivity]. destruct D as (a & b & t & -> & Sa & Ta & Mb). cbn [rbind fst snd].
      eexists. exists t. split; [reflexivity|]. split; [|exact Ta]. eapply says_sum.
      - apply (says_app [_] (a ++ [_]) [] [] [] []); [repeat split; repeat constructor|]. apply says_app; [exact Sa|apply quote_says].
      - cbn [app]. apply app_nil_r.
      - cbn [app]. apply app_nil_r.
      - cbn [app]. apply app_nil_r.
      - cbn [app]. rewrite Mb, X. rewrite flat_map_concat_map, map_map, <- flat_map_concat_map. reflexivity. }
    assert (None' : forall bs, says bs [] [] [] (expected_mentions safe_label s) ->
      exists bs' t, Ok bs = @Ok (list block) bs' /\ says bs' [] [] t (expected_mentions safe_label s) /\ trait_tables f64_str [] t).
    { intros bs S. exists bs, []. split; [reflexivity|]. split; [exact S|constructor]. }
    unfold members_fine, describe_body.
    destruct (ts_body s) as [z|mb|mb|k v|ms|ms|sv|o|r|] eqn:E; cbn [members_of forallb map flat_map] in F |- *;
      try (apply None').
    - unfold expected_mentions. rewrite E. apply says_nil.
    - inversion F; subst. apply (One _ mb eq_refl); [reflexivity| |assumption]. unfold expected_mentions. rewrite E. reflexivity.
    - inversion F; subst. apply (One _ mb eq_refl); [reflexivity| |assumption]. unfold expected_mentions. rewrite E. reflexivity.
    - inversion F as [|? ? O1 F1]; subst. inversion F1 as [|? ? O2 F2]; subst.
      pose proof (documentation_ok _ O1) as D1. pose proof (documentation_ok _ O2) as D2. unfold describe_map.
      destruct (doc_fine (ms_traits k)); cbn [andb]; [|rewrite D1; reflexivity]. destruct D1 as (d1 & t1 & -> & S1 & T1). cbn [rbind].
      destruct (doc_fine (ms_traits v)); cbn [andb]; [|rewrite D2; reflexivity]. destruct D2 as (d2 & t2 & -> & S2 & T2). cbn [rbind].
      eexists. exists (t1 ++ t2). split; [reflexivity|]. split; [|exact (trait_tables_app [_] _ [_] _ T1 T2)]. eapply says_sum.
      + apply says_app; [apply para_says; discriminate|]. apply says_app; [exact S1|]. apply says_app; [apply para_says; discriminate|exact S2].
      + cbn [app]. rewrite app_nil_r. reflexivity.
      + cbn [app]. rewrite app_nil_r. reflexivity.
      + reflexivity.
      + unfold expected_mentions. rewrite E, !(link_refer _ _ N). cbn [flat_map mentioned app]. rewrite !mentioned_refer. reflexivity.
    - apply Many; [exact F|]. unfold expected_mentions. rewrite E. reflexivity.
    - apply Many; [exact F|]. unfold expected_mentions. rewrite E. reflexivity.
    - unfold expected_mentions. rewrite E. apply service_says, N.
    - unfold expected_mentions. rewrite E. apply operation_says, N.
    - apply resource_says; assumption.
    - unfold expected_mentions. rewrite E. apply says_nil.
  Qed.

  (** ** Headings *)
  Lemma by_heading_skip l bs rest : Forall (fun b => match b with Heading l' _ _ => same_level l l' = false | _ => True end) bs ->
    by_heading l (bs ++ rest) = (bs ++ fst (by_heading l rest), snd (by_heading l rest)).
  Proof.
    induction bs as [|b bs IH]; intros F; cbn [app by_heading]; [destruct (by_heading l rest); reflexivity|].
    inversion F as [|? ? F1 F2]; subst. rewrite (IH F2). destruct b; try reflexivity. rewrite F1. reflexivity.
  Qed.
  Lemma by_heading_title l t lb rest :
    by_heading l (Heading l t lb :: rest) = ([], (t, lb, fst (by_heading l rest)) :: snd (by_heading l rest)).
  Proof. cbn [by_heading]. destruct (by_heading l rest). destruct l; reflexivity. Qed.

  Definition shape_fine (s : shape) : bool := doc_fine (ts_traits s) && members_fine s.
  Lemma kind_type_name b : b <> KUnresolved -> kind_text b = GraphMLSpec.type_name b.
  Proof. destruct b as [[]| | | | | | | | |]; intros N; try reflexivity. contradiction. Qed.
  (** ** Lines *)
  Definition framed (bs : list block) : Prop :=
    Forall (fun t => t = lit "See also: ") (introductions bs) /\ Forall (fun c => c = [lit "Trait ID"; lit "Path"; lit "Value"]) (columns bs).
  Lemma framed_app a b : framed a -> framed b -> framed (a ++ b).
  Proof. intros [A B] [C D]. unfold framed, introductions, columns in *. rewrite !flat_map_app. split; apply Forall_app; split; assumption. Qed.
  Lemma lines_app a b : lines (a ++ b) = lines a ++ lines b.
  Proof. apply flat_map_app. Qed.
  Lemma documentation_lines ts bs : describe_documentation ts = Ok bs -> lines bs = [] /\ framed bs.
  Proof.
    unfold describe_documentation, describe_traits. intros E.
    assert (X : forall doc links tr, lines doc = [] /\ framed doc -> lines links = [] /\ framed links -> lines tr = [] /\ framed tr ->
                 lines (doc ++ links ++ tr) = [] /\ framed (doc ++ links ++ tr)).
    { intros doc links tr (A & A') (B & B') (C & C'). rewrite !lines_app, A, B, C. split; [reflexivity|]. apply framed_app; [exact A'|]. apply framed_app; assumption. }
    assert (Nil : lines [] = [] /\ framed []) by (repeat split; constructor).
    destruct (match hm_get sid_key_eqb documentation_id ts with Some (Some (VString s)) => Ok [Paragraph [Plain s]] | Some (Some _) => Panic | _ => Ok [] end) as [doc|e|] eqn:D;
      cbn [rbind] in E; [|discriminate E..].
    destruct (all_trait_rows _ _ _) as [rows|e|]; cbn [rbind] in E; [|discriminate E..]. injection E as <-. apply X.
    - destruct (hm_get sid_key_eqb documentation_id ts) as [[[]|]|]; try discriminate D; injection D as <-; repeat split; constructor.
    - destruct (hm_get sid_key_eqb external_documentation_id ts) as [[[|[|[k v] vs]| | | |]|]|]; try exact Nil.
      cbn [map]. repeat split; repeat constructor.
    - destruct rows; [exact Nil|]. repeat split; repeat constructor.
  Qed.
  Lemma quoted_framed t items : framed (quoted_list t items).
  Proof. destruct items; repeat split; constructor. Qed.
  Lemma quoted_lines t items l : map (fun i => Line (flat_map pieces i)) items = l -> lines (quoted_list (lit t) items) = headed t l.
  Proof. intros <-. destruct items; [reflexivity|]. cbn. rewrite !app_nil_r. reflexivity. Qed.
  Lemma pieces_refer a b : pieces (refer a b) = [refer a b].
  Proof. unfold DocumentSpec.refer. destruct (ns_eqb _ _); reflexivity. Qed.
  Lemma links_lines id l : sid_member id = None -> map (fun i => Line (flat_map pieces i)) (links safe_label id l) = map (fun t => Line [refer id t]) l.
  Proof.
    intros N. unfold links. rewrite map_map. apply map_ext. intros t. rewrite (link_refer _ _ N). cbn [flat_map]. rewrite pieces_refer. reflexivity.
  Qed.
  Lemma members_lines id ms : sid_member id = None -> forall a b, describe_members f64_str safe_label id ms = Ok (a, b) ->
    lines a = [] /\ framed a /\ flat_map lines1 b = map (fun mb => Line [Code (ms_id mb); Plain (lit ": "); refer id (ms_target mb)]) ms.
  Proof.
    intros N. induction ms as [|mb ms IH]; cbn [describe_members]; intros a b E.
    - injection E as <- <-. repeat split; constructor.
    - destruct (describe_documentation _) as [d|e|] eqn:D; cbn [rbind] in E; [|discriminate E..].
      destruct (describe_members _ _ _ ms) as [[a' b']|e|]; cbn [rbind fst snd] in E; [|discriminate E..]. injection E as <- <-.
      destruct (IH _ _ eq_refl) as (A & F & B). apply documentation_lines in D as (L & F').
      split; [rewrite lines_app, L, A; reflexivity|]. split; [apply framed_app; assumption|].
      cbn [flat_map lines1 map]. rewrite B, (link_refer _ _ N). cbn [flat_map pieces app]. rewrite pieces_refer. reflexivity.
  Qed.
  Lemma body_lines s bs : sid_member (ts_id s) = None -> describe_body f64_str safe_label s = Ok bs -> lines bs = expected_lines safe_label s /\ framed bs.
  Proof.
    intros N E. unfold describe_body in E. unfold expected_lines.
    assert (Nil : framed []) by (split; constructor).
    assert (One : forall mb bs, describe_list_or_set f64_str safe_label (ts_id s) mb = Ok bs ->
              lines bs = [Line [Bold (lit "Member type: "); refer (ts_id s) (ms_target mb)]] /\ framed bs).
    { intros mb bs' E'. unfold describe_list_or_set in E'. destruct (describe_documentation _) as [d|e|] eqn:D; cbn [rbind] in E'; [|discriminate E'..].
      injection E' as <-. apply documentation_lines in D as (L & F). split; [|exact F].
      unfold lines in *. cbn [flat_map lines1]. rewrite L, (link_refer _ _ N). cbn [flat_map pieces app]. rewrite pieces_refer. reflexivity. }
    assert (Many : forall ms bs, describe_structure_or_union f64_str safe_label (ts_id s) ms = Ok bs ->
              lines bs = headed "Members" (map (fun e => Line [Code (ms_id (snd e)); Plain (lit ": "); refer (ts_id s) (ms_target (snd e))]) ms) /\ framed bs).
    { intros ms bs' E'. unfold describe_structure_or_union in E'. destruct ms as [|e ms]; [injection E' as <-; split; [reflexivity|exact Nil]|].
      destruct (describe_members _ _ _ _) as [[a b]|x|] eqn:D; cbn [rbind fst snd] in E'; [|discriminate E'..]. injection E' as <-.
      apply (members_lines _ _ N) in D as (A & F & B). split.
      - change (lines ([Heading Section3 (lit "Members") None] ++ (a ++ [Quote b])) = headed "Members" (map (fun e => Line [Code (ms_id (snd e)); Plain (lit ": "); refer (ts_id s) (ms_target (snd e))]) (e :: ms))).
        rewrite !lines_app, A. cbn [app]. unfold lines. cbn [flat_map lines1 app]. rewrite B. unfold hm_values. rewrite map_map, app_nil_r. reflexivity.
      - apply (framed_app [Heading _ _ _]); [exact Nil|]. apply framed_app; [exact F|exact Nil]. }
    destruct (ts_body s) as [x|mb|mb|k v|ms|ms|sv|o|r|]; try (injection E as <-; split; [reflexivity|exact Nil]).
    - exact (One _ _ E).
    - exact (One _ _ E).
    - unfold describe_map in E. destruct (describe_documentation (ms_traits k)) as [dk|e|] eqn:Dk; cbn [rbind] in E; [|discriminate E..].
      destruct (describe_documentation (ms_traits v)) as [dv|e|] eqn:Dv; cbn [rbind] in E; [|discriminate E..]. injection E as <-.
      apply documentation_lines in Dk as (Lk & Fk). apply documentation_lines in Dv as (Lv & Fv). split.
      + change (lines ([Paragraph [Bold (lit "Key type: "); shape_link (ts_id s) (ms_target k)]] ++ dk ++ [Paragraph [Bold (lit ", value type: "); shape_link (ts_id s) (ms_target v)]] ++ dv)
          = [Line [Bold (lit "Key type: "); refer (ts_id s) (ms_target k)]; Line [Bold (lit ", value type: "); refer (ts_id s) (ms_target v)]]).
        rewrite !lines_app, Lk, Lv, !(link_refer _ _ N). unfold lines. cbn [flat_map lines1 pieces app]. rewrite !pieces_refer. reflexivity.
      + apply (framed_app [Paragraph _]); [exact Nil|]. apply framed_app; [exact Fk|]. apply (framed_app [Paragraph _]); [exact Nil|exact Fv].
    - exact (Many _ _ E).
    - exact (Many _ _ E).
    - injection E as <-. unfold describe_service. split.
      + rewrite !lines_app. apply f_equal2; [reflexivity|]. apply f_equal2; [apply quoted_lines, links_lines, N|]. apply f_equal2; [apply quoted_lines, links_lines, N|].
        apply quoted_lines. rewrite map_map. apply map_ext. intros e. cbn [flat_map pieces app]. rewrite sid_display_text. reflexivity.
      + apply framed_app; [exact Nil|]. apply framed_app; [apply quoted_framed|]. apply framed_app; apply quoted_framed.
    - injection E as <-. unfold describe_operation. split.
      + rewrite !lines_app. apply f_equal2; [|apply f_equal2].
        * destruct (op_input o); [|reflexivity]. unfold lines. cbn [flat_map lines1 pieces app]. rewrite (link_refer _ _ N), pieces_refer. reflexivity.
        * destruct (op_output o); [|reflexivity]. unfold lines. cbn [flat_map lines1 pieces app]. rewrite (link_refer _ _ N), pieces_refer. reflexivity.
        * destruct (op_errors o) as [|e es]; [reflexivity|]. unfold lines. cbn [flat_map lines1]. rewrite (links_lines _ _ N). cbn [flat_map pieces app]. rewrite !app_nil_r. reflexivity.
      + apply framed_app; [destruct (op_input o); exact Nil|]. apply framed_app; [destruct (op_output o); exact Nil|]. destruct (op_errors o); exact Nil.
    - injection E as <-. unfold describe_resource. split.
      + rewrite !lines_app. apply f_equal2; [|apply f_equal2; [apply quoted_lines, links_lines, N|apply f_equal2; apply quoted_lines, links_lines, N]].
        apply quoted_lines. rewrite !map_app.
        assert (L : forall n x, map (fun i => Line (flat_map pieces i)) (lifecycle_item safe_label (ts_id s) n x)
                                = match x with Some t => [Line [Code n; Plain (lit ": "); refer (ts_id s) t]] | None => [] end).
        { intros n [t|]; [|reflexivity]. cbn [lifecycle_item map flat_map pieces app]. rewrite (link_refer _ _ N), pieces_refer. reflexivity. }
        rewrite !L. reflexivity.
      + apply framed_app; [apply quoted_framed|]. apply framed_app; [apply quoted_framed|]. apply framed_app; apply quoted_framed.
  Qed.

  Lemma shape_says s : sid_member (ts_id s) = None -> ts_body s <> KUnresolved -> Forall traits_ok (trait_sets s) ->
    if shape_fine s then
      exists title lb bs, describe_shape f64_str safe_label s = Ok (Heading Section2 title (Some lb) :: bs) /\ Forall plain_block bs
        /\ section_about f64_str safe_label s (title, Some lb, bs)
    else describe_shape f64_str safe_label s = Panic.
  Proof.
    intros N U F. inversion F as [|? ? O F']; subst. unfold shape_fine, describe_shape.
    pose proof (documentation_ok _ O) as D. destruct (doc_fine (ts_traits s)); cbn [andb]; [|rewrite D; reflexivity].
    destruct D as (d & t & D & Sd & Td). rewrite D. apply documentation_lines in D as (Ld & Fd). cbn [rbind].
    assert (Fm : Forall (fun mb => traits_ok (ms_traits mb)) (members_of (ts_body s))).
    { apply Forall_forall. intros mb I. rewrite Forall_forall in F'. apply F', in_map, I. }
    pose proof (body_says s N Fm) as B. destruct (members_fine s); [|rewrite B; reflexivity].
    destruct B as (b & t' & B & Sb & Tb). rewrite B. destruct (body_lines _ _ N B) as (Lb & Fb). cbn [rbind]. eexists _, _, (d ++ b). split; [reflexivity|].
    destruct (says_app _ _ _ _ _ _ _ _ _ _ Sd Sb) as (P & E1 & E2 & E3 & E4). split; [exact P|].
    unfold section_about, title_of, label_of, body_blocks. cbn [fst snd].
    split; [rewrite (kind_type_name _ U); reflexivity|]. split; [reflexivity|].
    rewrite E1, E2, E3, E4. split; [reflexivity|]. split; [reflexivity|].
    split; [exact (trait_tables_app [_] _ _ _ Td Tb)|]. split; [reflexivity|]. split; [rewrite lines_app, Ld, Lb; reflexivity|].
    exact (framed_app _ _ Fd Fb).
  Qed.

  (** ** Namespaces *)
  Definition stored_ok (m : model) (s : shape) : Prop :=
    model_shape m (ts_id s) = Some s /\ sid_member (ts_id s) = None /\ ts_body s <> KUnresolved /\ Forall traits_ok (trait_sets s).
  Lemma stored_shapes m k s : maps_ok m -> In (k, s) (m_shapes m) -> ts_body s <> KUnresolved -> stored_ok m s.
  Proof.
    intros [[(K & D & _) [F _]] M] I U. destruct (K _ _ I) as [-> Km]. split; [|split; [|split; [exact U|]]].
    - apply (hm_get_In _ sid_key_equiv); assumption.
    - destruct (sid_member (ts_id s)); [|reflexivity]. exfalso. apply U, Km. discriminate.
    - rewrite Forall_forall in F. destruct (F _ I) as [T _]. constructor; [exact T|]. apply Forall_forall.
      intros ts It. apply in_map_iff in It as (mb & <- & It). exact (M _ _ _ I It).
  Qed.
  Definition not_section1 (b : block) : Prop := match b with Heading Section1 _ _ => False | _ => True end.
  Lemma names_say m ss : Forall (stored_ok m) ss ->
    if forallb shape_fine ss then
      exists bs sections, describe_names f64_str safe_label m (map ts_id ss) = Ok bs /\ Forall not_section1 bs
        /\ by_heading Section2 bs = ([], sections) /\ Forall2 (section_about f64_str safe_label) ss sections
    else describe_names f64_str safe_label m (map ts_id ss) = Panic.
  Proof.
    induction ss as [|s ss IH]; intros F; cbn [forallb map describe_names].
    - exists [], []. repeat split; constructor.
    - inversion F as [|? ? (M & N & U & T) F']; subst. rewrite M. pose proof (shape_says s N U T) as S.
      destruct (shape_fine s); cbn [andb]; [|rewrite S; reflexivity]. destruct S as (title & lb & b & -> & P & A). cbn [rbind].
      specialize (IH F'). destruct (forallb shape_fine ss); [|rewrite IH; reflexivity].
      destruct IH as (bs & sections & -> & P' & E & A'). cbn [rbind]. eexists. exists ((title, Some lb, b) :: sections). split; [reflexivity|].
      split; [|split].
      + constructor; [exact Logic.I|]. apply Forall_app. split; [|exact P']. revert P. apply Forall_impl. intros [[] | | | |]; cbn; auto.
      + cbn [app]. rewrite by_heading_title, by_heading_skip, E; [cbn [fst snd]; rewrite app_nil_r; reflexivity|].
        revert P. apply Forall_impl. intros [[] | | | |]; cbn; tauto.
      + constructor; assumption.
  Qed.

  Lemma filter_filter {A} (f g : A -> bool) l : filter f (filter g l) = filter (fun x => g x && f x) l.
  Proof. induction l as [|x l IH]; cbn; [reflexivity|]. destruct (g x); cbn; rewrite IH; reflexivity. Qed.
  Lemma filter_map_swap {A B} (f : B -> bool) (g : A -> B) l : filter f (map g l) = map g (filter (fun x => f (g x)) l).
  Proof. induction l as [|x l IH]; cbn; [reflexivity|]. rewrite IH. destruct (f (g x)); reflexivity. Qed.
  Definition group (m : model) (ns : str) : list shape :=
    filter (fun s => resolved s && ns_eqb (sid_ns (ts_id s)) ns) (map snd (m_shapes m)).
  Lemma group_names m ns : filter (fun id => ns_eqb (sid_ns id) ns) (shape_names m) = map ts_id (group m ns).
  Proof.
    unfold shape_names, group, shapes, hm_values. rewrite filter_map_swap, filter_filter. f_equal. apply filter_ext. intros s. unfold resolved.
    destruct (ts_body s); reflexivity.
  Qed.
  Lemma forallb_perm {A} (f : A -> bool) l l' : Permutation l l' -> forallb f l = forallb f l'.
  Proof. induction 1; cbn; [reflexivity|congruence|rewrite !andb_assoc, (andb_comm (f y)); reflexivity|congruence]. Qed.
  Lemma group_stored m ns s : maps_ok m -> In s (group m ns) -> stored_ok m s.
  Proof.
    intros M I. apply filter_In in I as [I R]. apply in_map_iff in I as ([k s'] & <- & I). apply (stored_shapes m k); [assumption..|].
    cbn in R |- *. intros E. unfold resolved in R. rewrite E in R. discriminate.
  Qed.
  Lemma chapter_says m ns : maps_ok m -> group m ns <> [] ->
    if forallb shape_fine (group m ns) then
      exists bs c, describe_model_shapes f64_str safe_label m ns = Ok (Heading Section1 (title_of c) (label_of c) :: bs)
        /\ Forall not_section1 bs /\ body_blocks c = bs /\ chapter_about f64_str safe_label m ns c
    else describe_model_shapes f64_str safe_label m ns = Panic.
  Proof.
    intros M N. set (leb := fun a b : shape_id => str_leb (sid_display a) (sid_display b)).
    destruct (Permutation_map_inv ts_id _ (Permutation_sym (sort_by_perm leb (map ts_id (group m ns))))) as (ss & E & P).
    assert (Em : describe_model_shapes f64_str safe_label m ns =
      (b <- describe_names f64_str safe_label m (sort_by leb (map ts_id (group m ns))) ;; Ok (Heading Section1 (lit "Namespace " ++ ns) None :: b))).
    { unfold describe_model_shapes. rewrite group_names. destruct (group m ns); [contradiction|reflexivity]. }
    rewrite Em. clear Em.
    rewrite E. rewrite (forallb_perm _ _ _ P).
    assert (F : Forall (stored_ok m) ss).
    { apply Forall_forall. intros s I. apply (group_stored m ns); [exact M|]. eapply Permutation_in; [symmetry; exact P|exact I]. }
    pose proof (names_say m ss F) as A. destruct (forallb shape_fine ss); [|rewrite A; reflexivity].
    destruct A as (bs & sections & -> & P1 & B & A). cbn [rbind]. exists bs, (lit "Namespace " ++ ns, None, bs).
    split; [reflexivity|]. split; [exact P1|]. split; [reflexivity|]. split; [reflexivity|]. split; [reflexivity|].
    exists ss, sections. split; [symmetry; exact P|]. split; [|split; [exact B|exact A]].
    assert (S : StronglySorted (fun a b => leb a b = true) (map ts_id ss)).
    { rewrite <- E. apply sort_by_sorted; unfold leb; [intros a b; apply str_leb_total|intros a b c; apply str_leb_trans]. }
    clear - S. induction ss as [|s ss IH]; [constructor|]. inversion S as [|? ? S1 S2]; subst. constructor; [auto|].
    rewrite Forall_forall in *. intros s' I B. apply P01_Identity.str_cmp_before in B. rewrite <- !sid_display_text in B.
    assert (Q := S2 _ (in_map ts_id _ _ I)). unfold leb, str_leb in Q. rewrite str_cmp_antisym, B in Q. discriminate.
  Qed.
  Lemma namespaces_say m order : maps_ok m -> (forall ns, In ns order -> group m ns <> []) ->
    if forallb (fun ns => forallb shape_fine (group m ns)) order then
      exists bs chapters, describe_namespaces f64_str safe_label m order = Ok bs
        /\ by_heading Section1 bs = ([], chapters) /\ Forall2 (chapter_about f64_str safe_label m) order chapters
    else describe_namespaces f64_str safe_label m order = Panic.
  Proof.
    intros M. induction order as [|ns order IH]; intros N; cbn [forallb describe_namespaces].
    - exists [], []. repeat split. constructor.
    - pose proof (chapter_says m ns M (N _ (or_introl eq_refl))) as C. destruct (forallb shape_fine (group m ns)); cbn [andb]; [|rewrite C; reflexivity].
      destruct C as (b & c & -> & P & E & C). cbn [rbind].
      specialize (IH (fun x I => N x (or_intror I))). destruct (forallb _ order); [|rewrite IH; reflexivity].
      destruct IH as (bs & chapters & -> & B & F). cbn [rbind]. eexists. exists (c :: chapters). split; [reflexivity|]. split; [|constructor; assumption].
      cbn [app]. rewrite by_heading_title, by_heading_skip, B; [cbn [fst snd]; rewrite app_nil_r|].
      + destruct c as [[t lb] b']. cbn in *. subst b'. reflexivity.
      + revert P. apply Forall_impl. intros [[] | | | |]; cbn; tauto.
  Qed.
End Facts.
