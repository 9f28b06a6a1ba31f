(** Chains of builder calls. *)
From Verif.Model Require Import Fluent.
From Verif.Spec Require Import FluentSpec.
From Verif.Proofs Require Import BaseFacts IdentityFacts HashMapFacts.

Lemma parse_ident s : (is_identifier s /\ unwrap (ident_from_str s) = Ok s) \/ (~ is_identifier s /\ unwrap (ident_from_str s) = Panic).
Proof.
  unfold ident_from_str. destruct (ident_is_valid s) eqn:E.
  - left. split; [apply ident_is_valid_spec, E|reflexivity].
  - right. split; [|reflexivity]. intros I. apply ident_is_valid_spec in I. congruence.
Qed.
Lemma parse_id s : (exists i, valid_id i /\ s = id_text i /\ unwrap (sid_from_str s) = Ok i) \/ (~ is_id s /\ unwrap (sid_from_str s) = Panic).
Proof.
  destruct (sid_from_str s) as [i|e|] eqn:E.
  - left. exists i. apply sid_from_str_sound in E as [V Q]. auto.
  - right. split; [|reflexivity]. intros (i & V & ->). rewrite sid_from_str_complete in E by exact V. discriminate.
  - right. split; [|reflexivity]. intros (i & V & ->). rewrite sid_from_str_complete in E by exact V. discriminate.
Qed.
Lemma parse_name_spec s : (exists n, names s n /\ parse_name s = Ok n) \/ (~ is_name s /\ parse_name s = Panic).
Proof.
  unfold parse_name, shape_name_from_str. destruct (sid_is_valid s) eqn:E.
  - left. apply sid_is_valid_spec in E as [i E]. rewrite E. exists (Qualified i). apply sid_from_str_sound in E. split; [exact E|reflexivity].
  - assert (N : forall i, ~ (valid_id i /\ s = id_text i)).
    { intros i [V ->]. assert (X : sid_is_valid (id_text i) = true) by (apply sid_is_valid_spec; exists i; apply sid_from_str_complete, V). congruence. }
    destruct (parse_ident s) as [[I P]|[I P]]; unfold ident_from_str in *; destruct (ident_is_valid s) eqn:V; cbn in P; try discriminate.
    + left. exists (Local s). repeat split; auto.
    + right. split; [|reflexivity]. intros [[i|x] Hn]; [apply (N i Hn)|destruct Hn as [X ->]; contradiction].
Qed.
Lemma names_fun s n n' : names s n -> names s n' -> n = n'.
Proof.
  intros A B. destruct (parse_name_spec s) as [(x & Hx & P)|(N & _)]; [|exfalso; apply N; exists n; exact A].
  assert (forall y, names s y -> parse_name s = Ok y).
  { intros y Y. unfold parse_name, shape_name_from_str. destruct y as [i|z]; cbn in Y.
    - destruct Y as [V ->]. assert (X : sid_is_valid (id_text i) = true) by (apply sid_is_valid_spec; exists i; apply sid_from_str_complete, V).
      rewrite X, sid_from_str_complete by exact V. reflexivity.
    - destruct Y as [I ->]. destruct (sid_is_valid z) eqn:E.
      + exfalso. apply sid_is_valid_spec in E as [i E]. apply sid_from_str_sound in E as [_ E].
        destruct I as (us & c & rest & -> & U & Al & R). assert (J : In "#"%char (us ++ c :: rest)) by (rewrite E; unfold id_text; apply in_app_iff; right; now left).
        apply in_app_iff in J as [J|[J|J]]; [rewrite Forall_forall in U; specialize (U _ J); discriminate|subst c; discriminate|].
        rewrite Forall_forall in R. specialize (R _ J). destruct R as [R|[R|R]]; discriminate R.
      + apply ident_is_valid_spec in I. unfold ident_from_str. rewrite I. reflexivity. }
  assert (Ea := H _ A). assert (Eb := H _ B). congruence.
Qed.

Lemma last_cons {A} (x : A) l d : last (x :: l) d = last l x.
Proof. revert x d. induction l as [|y l IH]; intros x d; [reflexivity|]. change (last (x :: y :: l) d) with (last (y :: l) d). rewrite (IH y d), (IH y x). reflexivity. Qed.
Lemma latest_cons {A} (x : A) l : latest (x :: l) = match latest l with Some y => Some y | None => Some x end.
Proof. unfold latest. cbn. destruct (rev l) as [|y r] eqn:E; reflexivity. Qed.

Lemma chain_app {C} (step : shape_builder -> C -> result shape_builder) a c b : chain step b (a ++ c) = rbind (chain step b a) (fun b' => chain step b' c).
Proof. revert b. induction a as [|x a IH]; intros b; cbn; [reflexivity|]. destruct (step b x); cbn; auto. Qed.
Lemma chain_each {A C} (step : shape_builder -> C -> result shape_builder) f (mk : A -> C) :
  (forall b x, step b (mk x) = f b x) -> forall l b, chain step b (map mk l) = each f b l.
Proof. intros E. induction l as [|x l IH]; intros b; cbn; [reflexivity|]. rewrite E. destruct (f b x); cbn; auto. Qed.
Lemma chain_expand {C} (step : shape_builder -> C -> result shape_builder) (expand : C -> list C) :
  (forall b c, chain step b (expand c) = step b c) -> forall cs b, chain step b (flat_map expand cs) = chain step b cs.
Proof. intros E. induction cs as [|c cs IH]; intros b; cbn; [reflexivity|]. rewrite chain_app, E. destruct (step b c); cbn; auto. Qed.
Lemma flat_map_flat {A B C} (f : A -> list B) (g : B -> list C) (h : A -> list C) l :
  (forall x, flat_map g (f x) = h x) -> flat_map g (flat_map f l) = flat_map h l.
Proof. intros E. induction l as [|x l IH]; cbn; [reflexivity|]. rewrite flat_map_app, E, IH. reflexivity. Qed.
Lemma Forall_flat {A B} (f : A -> list B) (P : B -> Prop) (Q : A -> Prop) l :
  (forall x, Forall P (f x) <-> Q x) -> Forall P (flat_map f l) <-> Forall Q l.
Proof.
  intros E. induction l as [|x l IH]; cbn; [split; constructor|]. rewrite Forall_app, E, IH. split; [intros []; constructor; auto|intros X; inversion X; auto].
Qed.
Lemma rbind_ok {A} (r : result A) : rbind r (fun b => Ok b) = r. Proof. destruct r; reflexivity. Qed.

Ltac start_chain := cbn [chain flat_map app]; rewrite ?app_nil_r.

(** ** Services *)
Section Service.
  Context `{Hasher}.
  Definition sv_expand (c : service_call) : list service_call :=
    match c with SvOperations l => map SvOperation l | SvResources l => map SvResource l | _ => [c] end.
  Lemma sv_chain_expand cs b : chain service_step b (flat_map sv_expand cs) = chain service_step b cs.
  Proof.
    apply chain_expand. intros b' c. destruct c; cbn [sv_expand chain]; rewrite ?rbind_ok; try reflexivity; apply chain_each; reflexivity.
  Qed.
  Lemma flat_map_single {A B} (f : A -> B) l : flat_map (fun x => [f x]) l = map f l.
  Proof. induction l; cbn; congruence. Qed.
  Lemma sv_expanded cs : sv_versions (flat_map sv_expand cs) = sv_versions cs /\ sv_ops (flat_map sv_expand cs) = sv_ops cs
    /\ sv_ress (flat_map sv_expand cs) = sv_ress cs /\ sv_renamed (flat_map sv_expand cs) = sv_renamed cs
    /\ sv_traits (flat_map sv_expand cs) = sv_traits cs /\ (Forall sv_call_ok (flat_map sv_expand cs) <-> Forall sv_call_ok cs).
  Proof.
    assert (L : forall (l : list str), flat_map (fun x => [x]) l = l) by (intros l; rewrite flat_map_single, map_id; reflexivity).
    assert (Z : forall A (l : list str), flat_map (fun _ => @nil A) l = []) by (intros A l; induction l; cbn; auto).
    repeat match goal with |- _ /\ _ => split end;
      try (apply flat_map_flat; intros []; cbn; rewrite ?flat_map_concat_map, ?map_map, <- ?flat_map_concat_map, ?Z, ?L; reflexivity).
    apply Forall_flat. intros []; cbn [sv_expand sv_call_ok]; try (split; [intros X; apply Forall_inv in X; exact X|intros X; constructor; [exact X|constructor]]).
    - rewrite Forall_map. reflexivity.
    - rewrite Forall_map. reflexivity.
  Qed.
  Definition insert_all {K V} (eqb : K -> K -> bool) (m : list (K * V)) (ps : list (K * V)) : list (K * V) :=
    fold_left (fun m p => hm_insert eqb (fst p) (snd p) m) ps m.
  Definition sv_after (b : shape_builder) (s : service_builder) (cs : list service_call) (b' : shape_builder) : Prop :=
    Forall sv_call_ok cs /\ sb_name b' = sb_name b /\ sb_traits b' = sb_traits b ++ sv_traits cs
    /\ exists ns rs ps, sb_body b' = BService (SvB (last (sv_versions cs) (svb_version s)) (svb_operations s ++ ns) (svb_resources s ++ rs) (insert_all sid_key_eqb (svb_renames s) ps))
       /\ Forall2 names (sv_ops cs) ns /\ Forall2 names (sv_ress cs) rs
       /\ Forall2 (fun t p => valid_id (fst p) /\ fst t = id_text (fst p) /\ is_identifier (snd p) /\ snd t = snd p) (sv_renamed cs) ps.
  Lemma sv_run cs : (forall c, In c cs -> sv_expand c = [c]) -> forall b s, sb_body b = BService s ->
    match chain service_step b cs with Ok b' => sv_after b s cs b' | Err _ => False | Panic => ~ Forall sv_call_ok cs end.
  Proof.
    intros X. induction cs as [|c cs IH]; intros b s E.
    - cbn. split; [constructor|]. split; [reflexivity|]. split; [symmetry; apply app_nil_r|]. exists [], [], []. rewrite !app_nil_r. cbn.
      split; [rewrite E; destruct s; reflexivity|]. repeat constructor.
    - specialize (IH (fun c I => X c (or_intror I))).
      assert (Bad : ~ sv_call_ok c -> ~ Forall sv_call_ok (c :: cs)) by (intros N F; inversion F; auto).
      assert (Go : forall b1 s1, service_step b c = Ok b1 -> sb_body b1 = BService s1 -> sv_call_ok c ->
        (forall b', sv_after b1 s1 cs b' -> sv_after b s (c :: cs) b') ->
        match chain service_step b (c :: cs) with Ok b' => sv_after b s (c :: cs) b' | Err _ => False | Panic => ~ Forall sv_call_ok (c :: cs) end).
      { intros b1 s1 St B1 Okc K. cbn [chain]. rewrite St. cbn [rbind]. specialize (IH b1 s1 B1). destruct (chain service_step b1 cs); auto.
        intros F; inversion F; auto. }
      destruct c as [v|id|ids|id|ids|id n|t]; cbn [service_step] in Go.
      + eapply Go; [unfold service_version, on_service; rewrite E; reflexivity|reflexivity|exact I|].
        intros b' (F & N & T & ns & rs & ps & B & A1 & A2 & A3). split; [constructor; auto; exact I|]. split; [exact N|]. split; [exact T|].
        exists ns, rs, ps. split; [|auto]. rewrite B. cbn [sv_versions flat_map app]. rewrite last_cons. reflexivity.
      + destruct (parse_name_spec id) as [(n & Hn & P)|(Hn & P)].
        * eapply Go; [unfold service_operation, on_service; rewrite E, P; reflexivity|reflexivity|exists n; exact Hn|].
          intros b' (F & N & T & ns & rs & ps & B & A1 & A2 & A3). split; [constructor; auto; exists n; exact Hn|]. split; [exact N|]. split; [exact T|].
          exists (n :: ns), rs, ps. cbn [svb_operations svb_version svb_resources svb_renames] in B. rewrite <- app_assoc in B. split; [exact B|]. repeat split; auto. constructor; auto.
        * cbn [chain service_step]. unfold service_operation, on_service. rewrite E, P. cbn [rbind]. apply Bad. exact Hn.
      + exfalso. specialize (X _ (or_introl eq_refl)). cbn in X. destruct ids as [|? [|? ?]]; discriminate X.
      + destruct (parse_name_spec id) as [(n & Hn & P)|(Hn & P)].
        * eapply Go; [unfold service_resource, on_service; rewrite E, P; reflexivity|reflexivity|exists n; exact Hn|].
          intros b' (F & N & T & ns & rs & ps & B & A1 & A2 & A3). split; [constructor; auto; exists n; exact Hn|]. split; [exact N|]. split; [exact T|].
          exists ns, (n :: rs), ps. cbn [svb_operations svb_version svb_resources svb_renames] in B. rewrite <- app_assoc in B. split; [exact B|]. repeat split; auto. constructor; auto.
        * cbn [chain service_step]. unfold service_resource, on_service. rewrite E, P. cbn [rbind]. apply Bad. exact Hn.
      + exfalso. specialize (X _ (or_introl eq_refl)). cbn in X. destruct ids as [|? [|? ?]]; discriminate X.
      + destruct (parse_id id) as [(i & V & -> & P)|(Hn & P)]; [destruct (parse_ident n) as [[In P2]|[In P2]]|].
        * eapply Go; [unfold service_rename, on_service; rewrite E, P, P2; reflexivity|reflexivity|split; [exists i; auto|exact In]|].
          intros b' (F & N & T & ns & rs & ps & B & A1 & A2 & A3). split; [constructor; auto; split; [exists i; auto|exact In]|]. split; [exact N|]. split; [exact T|].
          exists ns, rs, ((i, n) :: ps). split; [exact B|]. repeat split; auto. constructor; auto.
        * cbn [chain service_step]. unfold service_rename, on_service. rewrite E, P. cbn [rbind]. rewrite P2. apply Bad. intros [_ Y]; auto.
        * cbn [chain service_step]. unfold service_rename, on_service. rewrite E, P. cbn [rbind]. apply Bad. intros [Y _]; auto.
      + eapply Go; [reflexivity|exact E|exact I|].
        intros b' (F & N & T & ns & rs & ps & B & A1 & A2 & A3). split; [constructor; auto; exact I|]. split; [exact N|].
        split; [rewrite T; cbn [sb_apply sb_traits]; rewrite <- app_assoc; reflexivity|]. exists ns, rs, ps. auto.
  Qed.
  Lemma sv_expand_single cs c : In c (flat_map sv_expand cs) -> sv_expand c = [c].
  Proof.
    intros I. apply in_flat_map in I as (x & _ & I). destruct x; cbn in I; try (destruct I as [<-|[]]; reflexivity);
      apply in_map_iff in I as (y & <- & _); reflexivity.
  Qed.
  Lemma service_chain cs b s : sb_body b = BService s ->
    match chain service_step b cs with Ok b' => sv_after b s cs b' | Err _ => False | Panic => ~ Forall sv_call_ok cs end.
  Proof.
    intros E. rewrite <- sv_chain_expand. pose proof (sv_run _ (sv_expand_single cs) b s E) as R.
    destruct (sv_expanded cs) as (V & O & Rs & Rn & T & F). destruct (chain _ _ _) as [b'| |]; [|exact R|rewrite <- F; exact R].
    unfold sv_after in *. rewrite V, O, Rs, Rn, T, F in R. exact R.
  Qed.
End Service.

(** ** Operations *)
Definition op_expand (c : operation_call) : list operation_call := match c with OpErrors l => map OpError l | _ => [c] end.
Lemma op_chain_expand cs b : chain operation_step b (flat_map op_expand cs) = chain operation_step b cs.
Proof. apply chain_expand. intros b' c. destruct c; cbn [op_expand chain]; rewrite ?rbind_ok; try reflexivity; apply chain_each; reflexivity. Qed.
Lemma flat_map_const_nil {A B} (l : list A) : flat_map (fun _ => @nil B) l = []. Proof. induction l; cbn; auto. Qed.
Lemma flat_map_ones {A} (l : list A) : flat_map (fun x => [x]) l = l. Proof. rewrite flat_map_single, map_id. reflexivity. Qed.
Ltac expanded :=
  repeat match goal with |- _ /\ _ => split end;
  try (apply flat_map_flat; intros []; cbn; rewrite ?flat_map_concat_map, ?map_map, <- ?flat_map_concat_map, ?flat_map_const_nil, ?flat_map_ones; reflexivity).
Lemma op_expanded cs : op_inputs (flat_map op_expand cs) = op_inputs cs /\ op_outputs (flat_map op_expand cs) = op_outputs cs
  /\ op_errs (flat_map op_expand cs) = op_errs cs /\ op_traits (flat_map op_expand cs) = op_traits cs
  /\ (Forall op_call_ok (flat_map op_expand cs) <-> Forall op_call_ok cs).
Proof.
  expanded. apply Forall_flat. intros []; cbn [op_expand op_call_ok]; try (split; [intros X; apply Forall_inv in X; exact X|intros X; constructor; [exact X|constructor]]).
  rewrite Forall_map. reflexivity.
Qed.
Definition opt_after (ts : list str) (old new : option shape_name) : Prop :=
  match latest ts with Some t => exists n, new = Some n /\ names t n | None => new = old end.
Lemma opt_after_cons t ts old n new : names t n -> opt_after ts (Some n) new -> opt_after (t :: ts) old new.
Proof. unfold opt_after. rewrite latest_cons. destruct (latest ts); [auto|]. intros N ->. eauto. Qed.
Definition op_after (b : shape_builder) (o : operation_builder) (cs : list operation_call) (b' : shape_builder) : Prop :=
  Forall op_call_ok cs /\ sb_name b' = sb_name b /\ sb_traits b' = sb_traits b ++ op_traits cs
  /\ exists o' es, sb_body b' = BOperation o' /\ opt_after (op_inputs cs) (opb_input o) (opb_input o')
     /\ opt_after (op_outputs cs) (opb_output o) (opb_output o')
     /\ opb_errors o' = opb_errors o ++ es /\ Forall2 names (op_errs cs) es.
Lemma op_run cs : (forall c, In c cs -> op_expand c = [c]) -> forall b s, sb_body b = BOperation s ->
  match chain operation_step b cs with Ok b' => op_after b s cs b' | Err _ => False | Panic => ~ Forall op_call_ok cs end.
Proof.
  intros X. induction cs as [|c cs IH]; intros b s E.
  - cbn. split; [constructor|]. split; [reflexivity|]. split; [symmetry; apply app_nil_r|]. exists s, []. rewrite app_nil_r.
    repeat split; auto; constructor.
  - specialize (IH (fun c I => X c (or_intror I))).
    assert (Bad : ~ op_call_ok c -> ~ Forall op_call_ok (c :: cs)) by (intros N F; inversion F; auto).
    assert (Go : forall b1 s1, operation_step b c = Ok b1 -> sb_body b1 = BOperation s1 -> op_call_ok c ->
      (forall b', op_after b1 s1 cs b' -> op_after b s (c :: cs) b') ->
      match chain operation_step b (c :: cs) with Ok b' => op_after b s (c :: cs) b' | Err _ => False | Panic => ~ Forall op_call_ok (c :: cs) end).
    { intros b1 s1 St B1 Okc K. cbn [chain]. rewrite St. cbn [rbind]. specialize (IH b1 s1 B1). destruct (chain operation_step b1 cs); auto.
      intros F; inversion F; auto. }
    destruct c as [id|id|id|ids|t]; cbn [operation_step] in Go; try (destruct (parse_name_spec id) as [(n & Hn & P)|(Hn & P)]).
    + eapply Go; [unfold operation_input, on_operation; rewrite E, P; reflexivity|reflexivity|exists n; exact Hn|].
      intros b' (F & N & T & o' & es & B & A1 & A2 & A3 & A4). split; [constructor; auto; exists n; exact Hn|]. split; [exact N|]. split; [exact T|].
      exists o', es. repeat split; auto. eapply opt_after_cons; eauto.
    + cbn [chain operation_step]. unfold operation_input, on_operation. rewrite E, P. cbn [rbind]. apply Bad. exact Hn.
    + eapply Go; [unfold operation_output, on_operation; rewrite E, P; reflexivity|reflexivity|exists n; exact Hn|].
      intros b' (F & N & T & o' & es & B & A1 & A2 & A3 & A4). split; [constructor; auto; exists n; exact Hn|]. split; [exact N|]. split; [exact T|].
      exists o', es. repeat split; auto. eapply opt_after_cons; eauto.
    + cbn [chain operation_step]. unfold operation_output, on_operation. rewrite E, P. cbn [rbind]. apply Bad. exact Hn.
    + eapply Go; [unfold operation_error, on_operation; rewrite E, P; reflexivity|reflexivity|exists n; exact Hn|].
      intros b' (F & N & T & o' & es & B & A1 & A2 & A3 & A4). split; [constructor; auto; exists n; exact Hn|]. split; [exact N|]. split; [exact T|].
      exists o', (n :: es). cbn [opb_errors] in A3. rewrite <- app_assoc in A3. repeat split; auto. constructor; auto.
    + cbn [chain operation_step]. unfold operation_error, on_operation. rewrite E, P. cbn [rbind]. apply Bad. exact Hn.
    + exfalso. specialize (X _ (or_introl eq_refl)). cbn in X. destruct ids as [|? [|? ?]]; discriminate X.
    + eapply Go; [reflexivity|exact E|exact I|].
      intros b' (F & N & T & o' & es & A). split; [constructor; auto; exact I|]. split; [exact N|].
      split; [rewrite T; cbn [sb_apply sb_traits]; rewrite <- app_assoc; reflexivity|]. exists o', es. exact A.
Qed.
Lemma operation_chain cs b s : sb_body b = BOperation s ->
  match chain operation_step b cs with Ok b' => op_after b s cs b' | Err _ => False | Panic => ~ Forall op_call_ok cs end.
Proof.
  intros E. rewrite <- op_chain_expand. assert (S : forall c, In c (flat_map op_expand cs) -> op_expand c = [c]).
  { intros c I. apply in_flat_map in I as (x & _ & I). destruct x; cbn in I; try (destruct I as [<-|[]]; reflexivity).
    apply in_map_iff in I as (y & <- & _); reflexivity. }
  pose proof (op_run _ S b s E) as R.
  destruct (op_expanded cs) as (V & O & Rs & Rn & F). destruct (chain _ _ _) as [b'| |]; [|exact R|rewrite <- F; exact R].
  unfold op_after in *. rewrite V, O, Rs, Rn, F in R. exact R.
Qed.

(** ** Resources *)
Section Resource.
  Context `{Hasher}.
  Definition rs_expand (c : resource_call) : list resource_call := match c with RsMany g l => map (RsOne g) l | _ => [c] end.
  Lemma rs_chain_expand cs b : chain resource_step b (flat_map rs_expand cs) = chain resource_step b cs.
  Proof.
    apply chain_expand. intros b' c. destruct c as [a id|g id|g ids|n t|t]; cbn [rs_expand chain]; rewrite ?rbind_ok; try reflexivity.
    destruct g; apply chain_each; reflexivity.
  Qed.
  Lemma rs_expanded cs : (forall a, rs_lifecycle a (flat_map rs_expand cs) = rs_lifecycle a cs) /\ (forall g, rs_group g (flat_map rs_expand cs) = rs_group g cs)
    /\ rs_idents (flat_map rs_expand cs) = rs_idents cs /\ rs_traits (flat_map rs_expand cs) = rs_traits cs
    /\ (Forall rs_call_ok (flat_map rs_expand cs) <-> Forall rs_call_ok cs).
  Proof.
    repeat match goal with |- _ /\ _ => split | |- forall _, _ => intros ? end.
    - apply flat_map_flat; intros []; cbn; rewrite ?flat_map_concat_map, ?map_map, <- ?flat_map_concat_map, ?flat_map_const_nil, ?app_nil_r; reflexivity.
    - apply flat_map_flat; intros []; cbn; rewrite ?flat_map_concat_map, ?map_map, <- ?flat_map_concat_map, ?app_nil_r; try reflexivity.
      destruct (group_eq g g0); [apply flat_map_ones|apply flat_map_const_nil].
    - apply flat_map_flat; intros []; cbn; rewrite ?flat_map_concat_map, ?map_map, <- ?flat_map_concat_map, ?flat_map_const_nil, ?app_nil_r; reflexivity.
    - apply flat_map_flat; intros []; cbn; rewrite ?flat_map_concat_map, ?map_map, <- ?flat_map_concat_map, ?flat_map_const_nil, ?app_nil_r; reflexivity.
    - apply Forall_flat. intros []; cbn [rs_expand rs_call_ok]; try (split; [intros X; apply Forall_inv in X; exact X|intros X; constructor; [exact X|constructor]]).
      rewrite Forall_map. reflexivity.
  Qed.
  Definition rs_after (b : shape_builder) (r : resource_builder) (cs : list resource_call) (b' : shape_builder) : Prop :=
    Forall rs_call_ok cs /\ sb_name b' = sb_name b /\ sb_traits b' = sb_traits b ++ rs_traits cs
    /\ exists r' ps, sb_body b' = BResource r'
       /\ (forall a, opt_after (rs_lifecycle a cs) (lifecycle_of a r) (lifecycle_of a r'))
       /\ (forall g, exists ns, group_of g r' = group_of g r ++ ns /\ Forall2 names (rs_group g cs) ns)
       /\ rsb_identifiers r' = insert_all ident_key_eqb (rsb_identifiers r) ps
       /\ Forall2 (fun t p => is_identifier (fst p) /\ fst t = fst p /\ names (snd t) (snd p)) (rs_idents cs) ps.
  Lemma rs_step_life b r a id : sb_body b = BResource r ->
    (exists n r1, names id n /\ resource_step b (RsLifecycle a id) = Ok (SB (sb_name b) (sb_traits b) (BResource r1))
       /\ (forall a', lifecycle_of a' r1 = if lifecycle_eq a' a then Some n else lifecycle_of a' r)
       /\ (forall g, group_of g r1 = group_of g r) /\ rsb_identifiers r1 = rsb_identifiers r)
    \/ (~ is_name id /\ resource_step b (RsLifecycle a id) = Panic).
  Proof.
    intros E. destruct (parse_name_spec id) as [(n & Hn & P)|(Hn & P)].
    - left. exists n. destruct a; cbn [resource_step];
        unfold resource_create, resource_put, resource_read, resource_update, resource_delete, resource_list, on_resource; rewrite E, P; cbn [rbind];
        eexists; (split; [exact Hn|]); (split; [reflexivity|]); (split; [intros []; reflexivity|]); (split; [intros []; reflexivity|reflexivity]).
    - right. split; [exact Hn|]. destruct a; cbn [resource_step];
        unfold resource_create, resource_put, resource_read, resource_update, resource_delete, resource_list, on_resource; rewrite E, P; reflexivity.
  Qed.
  Lemma rs_step_one b r g id : sb_body b = BResource r ->
    (exists n r1, names id n /\ resource_step b (RsOne g id) = Ok (SB (sb_name b) (sb_traits b) (BResource r1))
       /\ (forall a, lifecycle_of a r1 = lifecycle_of a r)
       /\ (forall g', group_of g' r1 = group_of g' r ++ if group_eq g' g then [n] else []) /\ rsb_identifiers r1 = rsb_identifiers r)
    \/ (~ is_name id /\ resource_step b (RsOne g id) = Panic).
  Proof.
    intros E. destruct (parse_name_spec id) as [(n & Hn & P)|(Hn & P)].
    - left. exists n. destruct g; cbn [resource_step];
        unfold resource_operation, resource_collection_operation, resource_resource, on_resource; rewrite E, P; cbn [rbind];
        eexists; (split; [exact Hn|]); (split; [reflexivity|]); (split; [intros []; reflexivity|]); (split; [intros []; cbn; rewrite ?app_nil_r; reflexivity|reflexivity]).
    - right. split; [exact Hn|]. destruct g; cbn [resource_step];
        unfold resource_operation, resource_collection_operation, resource_resource, on_resource; rewrite E, P; reflexivity.
  Qed.
  Lemma rs_run cs : (forall c, In c cs -> rs_expand c = [c]) -> forall b s, sb_body b = BResource s ->
    match chain resource_step b cs with Ok b' => rs_after b s cs b' | Err _ => False | Panic => ~ Forall rs_call_ok cs end.
  Proof.
    intros X. induction cs as [|c cs IH]; intros b s E.
    - cbn. split; [constructor|]. split; [reflexivity|]. split; [symmetry; apply app_nil_r|]. exists s, [].
      split; [exact E|]. split; [intros a; reflexivity|]. split; [intros g; exists []; rewrite app_nil_r; repeat constructor|]. split; [reflexivity|constructor].
    - specialize (IH (fun c I => X c (or_intror I))).
      assert (Bad : ~ rs_call_ok c -> ~ Forall rs_call_ok (c :: cs)) by (intros N F; inversion F; auto).
      assert (Go : forall b1 s1, resource_step b c = Ok b1 -> sb_body b1 = BResource s1 -> rs_call_ok c ->
        (forall b', rs_after b1 s1 cs b' -> rs_after b s (c :: cs) b') ->
        match chain resource_step b (c :: cs) with Ok b' => rs_after b s (c :: cs) b' | Err _ => False | Panic => ~ Forall rs_call_ok (c :: cs) end).
      { intros b1 s1 St B1 Okc K. cbn [chain]. rewrite St. cbn [rbind]. specialize (IH b1 s1 B1). destruct (chain resource_step b1 cs); auto.
        intros F; inversion F; auto. }
      destruct c as [a id|g id|g ids|n t|t].
      + destruct (rs_step_life b s a id E) as [(n & r1 & Hn & St & L & G & Id)|(Hn & P)].
        * eapply Go; [exact St|reflexivity|exists n; exact Hn|].
          intros b' (F & N & T & r' & ps & B & A1 & A2 & A3 & A4). split; [constructor; auto; exists n; exact Hn|]. split; [exact N|]. split; [exact T|].
          exists r', ps. split; [exact B|]. split.
          { intros a'. specialize (A1 a'). rewrite L in A1. cbn [rs_lifecycle flat_map]. destruct (lifecycle_eq a' a); cbn [app]; [eapply opt_after_cons; eauto|exact A1]. }
          split; [intros g; destruct (A2 g) as (ns & Q & F2); rewrite G in Q; exists ns; auto|]. rewrite <- Id. auto.
        * cbn [chain]. rewrite P. cbn [rbind]. apply Bad. exact Hn.
      + destruct (rs_step_one b s g id E) as [(n & r1 & Hn & St & L & G & Id)|(Hn & P)].
        * eapply Go; [exact St|reflexivity|exists n; exact Hn|].
          intros b' (F & N & T & r' & ps & B & A1 & A2 & A3 & A4). split; [constructor; auto; exists n; exact Hn|]. split; [exact N|]. split; [exact T|].
          exists r', ps. split; [exact B|]. split; [intros a; rewrite <- L; apply A1|]. split.
          { intros g'. destruct (A2 g') as (ns & Q & F2). rewrite G, <- app_assoc in Q. eexists. split; [exact Q|]. cbn [rs_group flat_map].
            destruct (group_eq g' g); [constructor; auto|exact F2]. }
          rewrite <- Id. auto.
        * cbn [chain]. rewrite P. cbn [rbind]. apply Bad. exact Hn.
      + exfalso. specialize (X _ (or_introl eq_refl)). cbn in X. destruct ids as [|? [|? ?]]; discriminate X.
      + cbn [resource_step] in Go. destruct (parse_ident n) as [[In P2]|[In P2]]; [destruct (parse_name_spec t) as [(x & Hn & P)|(Hn & P)]|].
        * eapply Go; [unfold resource_identifier, on_resource; rewrite E, P2; cbn [rbind]; rewrite P; reflexivity|reflexivity|split; [exact In|exists x; exact Hn]|].
          intros b' (F & N & T & r' & ps & B & A1 & A2 & A3 & A4). split; [constructor; auto; split; [exact In|exists x; exact Hn]|]. split; [exact N|]. split; [exact T|].
          exists r', ((n, x) :: ps). split; [exact B|]. split; [intros a; specialize (A1 a); destruct a; exact A1|]. split; [intros g; specialize (A2 g); destruct g; exact A2|].
          split; [exact A3|]. constructor; auto.
        * cbn [chain resource_step]. unfold resource_identifier, on_resource. rewrite E, P2. cbn [rbind]. rewrite P. apply Bad. intros [_ Y]; auto.
        * cbn [chain resource_step]. unfold resource_identifier, on_resource. rewrite E, P2. cbn [rbind]. apply Bad. intros [Y _]; auto.
      + eapply Go; [reflexivity|exact E|exact I|].
        intros b' (F & N & T & r' & ps & A). split; [constructor; auto; exact I|]. split; [exact N|].
        split; [rewrite T; cbn [sb_apply sb_traits]; rewrite <- app_assoc; reflexivity|]. exists r', ps. exact A.
  Qed.
  Lemma resource_chain cs b s : sb_body b = BResource s ->
    match chain resource_step b cs with Ok b' => rs_after b s cs b' | Err _ => False | Panic => ~ Forall rs_call_ok cs end.
  Proof.
    intros E. rewrite <- rs_chain_expand. assert (S : forall c, In c (flat_map rs_expand cs) -> rs_expand c = [c]).
    { intros c I. apply in_flat_map in I as (x & _ & I). destruct x; cbn in I; try (destruct I as [<-|[]]; reflexivity).
      apply in_map_iff in I as (y & <- & _); reflexivity. }
    pose proof (rs_run _ S b s E) as R.
    destruct (rs_expanded cs) as (V & O & Rs & Rn & F). destruct (chain _ _ _) as [b'| |]; [|exact R|rewrite <- F; exact R].
    unfold rs_after in *. destruct R as (R1 & R2 & R3 & r' & ps & R4 & R5 & R6 & R7 & R8). rewrite F in R1. rewrite Rn in R3. rewrite Rs in R8.
    split; [exact R1|]. split; [exact R2|]. split; [exact R3|]. exists r', ps. split; [exact R4|].
    split; [intros a; rewrite <- V; apply R5|]. split; [intros g; rewrite <- O; apply R6|]. auto.
  Qed.
End Resource.

(** ** Structures and unions *)
Definition members_of (b : builder_body) : option (list member_builder) := match b with BStructure ms | BUnion ms => Some ms | _ => None end.
Definition set_members (b : builder_body) (ms : list member_builder) : builder_body :=
  match b with BStructure _ => BStructure ms | BUnion _ => BUnion ms | _ => b end.
Lemma structure_member_some b n t ms : members_of (sb_body b) = Some ms ->
  structure_member b n t = rbind (member_new n t) (fun m => Ok (SB (sb_name b) (sb_traits b) (set_members (sb_body b) (ms ++ [m])))).
Proof. unfold structure_member. destruct (member_new n t); cbn [rbind]; try reflexivity. destruct (sb_body b); cbn; intros [= ->]; reflexivity. Qed.
Lemma structure_add_some b m ms : members_of (sb_body b) = Some ms ->
  structure_add_member b m = SB (sb_name b) (sb_traits b) (set_members (sb_body b) (ms ++ [m])).
Proof. unfold structure_add_member. destruct (sb_body b); cbn; intros [= ->]; reflexivity. Qed.
Lemma set_members_of b ms ms' : members_of b = Some ms -> members_of (set_members b ms') = Some ms' /\ forall ms'', set_members (set_members b ms') ms'' = set_members b ms''.
Proof. destruct b; cbn; intros [= ->]; auto. Qed.
Lemma simple_name_ok s : names (shape_const s) (Local (simple_shape_name s)).
Proof. destruct s; (split; [apply ident_is_valid_spec; vm_compute; reflexivity|reflexivity]). Qed.
Lemma member_new_spec n t : (exists tn, is_identifier n /\ names t tn /\ member_new n t = Ok (MB n [] tn))
  \/ (~ (is_identifier n /\ is_name t) /\ member_new n t = Panic).
Proof.
  unfold member_new. fold (parse_name t). destruct (parse_ident n) as [[I P]|[I P]]; rewrite P; cbn [rbind]; [|right; split; [tauto|reflexivity]].
  destruct (parse_name_spec t) as [(tn & N & Q)|(N & Q)]; rewrite Q; cbn [rbind]; [left; eauto|right; split; [tauto|reflexivity]].
Qed.
Definition st_after (b : shape_builder) (ms : list member_builder) (cs : list structure_call) (b' : shape_builder) : Prop :=
  Forall st_call_ok cs /\ sb_name b' = sb_name b /\ sb_traits b' = sb_traits b ++ st_traits cs
  /\ exists new, sb_body b' = set_members (sb_body b) (ms ++ new) /\ st_adds cs new.
Lemma structure_chain cs : forall b ms, members_of (sb_body b) = Some ms ->
  match chain structure_step b cs with Ok b' => st_after b ms cs b' | Err _ => False | Panic => ~ Forall st_call_ok cs end.
Proof.
  induction cs as [|c cs IH]; intros b ms E.
  - cbn. split; [constructor|]. split; [reflexivity|]. split; [symmetry; apply app_nil_r|]. exists []. rewrite app_nil_r. split; [|constructor].
    destruct (sb_body b); cbn in *; congruence.
  - assert (Bad : ~ st_call_ok c -> ~ Forall st_call_ok (c :: cs)) by (intros N F; inversion F; auto).
    assert (Go : forall m, structure_step b c = Ok (SB (sb_name b) (sb_traits b) (set_members (sb_body b) (ms ++ [m]))) -> st_call_ok c ->
      st_traits (c :: cs) = st_traits cs -> (forall new, st_adds cs new -> st_adds (c :: cs) (m :: new)) ->
      match chain structure_step b (c :: cs) with Ok b' => st_after b ms (c :: cs) b' | Err _ => False | Panic => ~ Forall st_call_ok (c :: cs) end).
    { intros m St Okc Tr K. cbn [chain]. rewrite St. cbn [rbind]. destruct (set_members_of _ _ (ms ++ [m]) E) as [M1 M2].
      specialize (IH (SB (sb_name b) (sb_traits b) (set_members (sb_body b) (ms ++ [m]))) _ M1).
      destruct (chain structure_step _ cs) as [b'| |]; auto; [|intros F; inversion F; auto].
      destruct IH as (F & N & T & new & B & A). cbn [sb_body sb_traits sb_name] in *. rewrite M2, <- app_assoc in B.
      split; [constructor; auto|]. split; [exact N|]. split; [rewrite Tr; exact T|]. exists (m :: new). auto. }
    destruct c as [n t|n s|m|t].
    + destruct (member_new_spec n t) as [(tn & I & N & P)|(N & P)].
      * eapply Go; [cbn [structure_step]; rewrite (structure_member_some _ _ _ _ E), P; reflexivity|split; [exact I|exists tn; exact N]|reflexivity|].
        intros new A. constructor; auto.
      * cbn [chain structure_step]. rewrite (structure_member_some _ _ _ _ E), P. apply Bad. exact N.
    + destruct (member_new_spec n (shape_const s)) as [(tn & I & N & P)|(N & P)].
      * rewrite (names_fun _ _ _ N (simple_name_ok s)) in P.
        eapply Go; [cbn [structure_step]; unfold structure_simple; rewrite (structure_member_some _ _ _ _ E), P; reflexivity|exact I|reflexivity|].
        intros new A. constructor; auto.
      * cbn [chain structure_step]. unfold structure_simple. rewrite (structure_member_some _ _ _ _ E), P. apply Bad. intros Y. apply N. split; [exact Y|eexists; apply simple_name_ok].
    + eapply Go; [cbn [structure_step]; rewrite (structure_add_some _ _ _ E); reflexivity|exact I|reflexivity|]. intros new A. constructor; auto.
    + cbn [chain structure_step rbind]. specialize (IH (sb_apply b t) ms E). destruct (chain structure_step _ cs) as [b'| |]; auto; [|intros F; inversion F; auto].
      destruct IH as (F & N & T & new & B & A). split; [constructor; auto; exact I|]. split; [exact N|].
      split; [rewrite T; cbn [sb_apply sb_traits]; rewrite <- app_assoc; reflexivity|]. exists new. split; [exact B|constructor; exact A].
Qed.
