(** C28-C30, C42: the model builder (atelier-core/src/builder). *)
From Verif.Model Require Import Builder.
From Verif.Spec Require Import IdentitySpec BuilderSpec Witness.
From Verif.Proofs Require Import HashMapFacts ValueFacts ShapeFacts ModelFacts MergeFacts BuilderFacts.

(* ---------------------------------------------------------------- C28 *)
(** Every builder a history of calls can produce is covered by the theorems below. *)
Theorem C28_every_history_is_covered :
  forall (H : Hasher) (v : version) (ns : str) (b0 b : builder) (ops : list builder_op),
    builder_new v ns = Ok b0 -> Forall op_ok ops -> builder_run b0 ops = Ok b -> builder_ok b.
Proof. intros H v ns b0 b ops N F R. eapply builder_run_ok; eauto. eapply builder_ok_new; eauto. Qed.
Print Assumptions C28_every_history_is_covered.

Theorem C28_resolution_exact :
  forall (H : Hasher) (b : builder) (n : shape_name) (is_trait : bool) (r : result (shape_id * bool)),
    builder_ok b -> (resolve_shape_name b n is_trait = r <-> resolution b is_trait n r).
Proof. intros. apply resolve_spec. assumption. Qed.
Print Assumptions C28_resolution_exact.

(** A builder with a declaration, an import, two imports of the same name and everything else. *)
Definition structure_with (n : string) (ms : list (string * string)) (ts : list trait_builder) : shape_builder :=
  SB (Local n) ts (BStructure (map (fun m : string * string => MB (fst m) [] (Local (snd m))) ms)).
Definition doc (s : string) : trait_builder := TB (Local "documentation") (Some (VString s)).
Definition weather : list builder_op :=
  [BoShape (structure_with "City" [("name", "String"); ("where", "Coordinates"); ("map", "Chart")] [doc "A city"]);
   BoUses "geo#Coordinates"; BoUses "a#Twice"; BoUses "b#Twice";
   BoShape (SB (Local "Names") [] (BSet (MB "member" [] (Local "String"))));
   BoMetadata "authors" (VArray [])]%string.
Definition start (ns : string) : builder := Builder ns V10 [] [].
Definition weather_b : builder :=
  match @builder_run zero_hasher (start "example.weather") weather with Ok b => b | _ => start "x" end.
Lemma weather_ok : @builder_ok zero_hasher weather_b.
Proof.
  apply (@C28_every_history_is_covered zero_hasher V10 (lit "example.weather") (start "example.weather") weather_b weather).
  - vm_compute. reflexivity.
  - repeat constructor; cbn; try discriminate.
  - vm_compute. reflexivity.
Qed.
Example C28_ex :
  let res := @resolution zero_hasher weather_b in
  res false (Local "City") (Ok (SID "example.weather" "City" None, false))
  /\ res false (Local "Coordinates") (Ok (SID "geo" "Coordinates" None, false))
  /\ res false (Local "Twice") (Err (EAmbiguousShape "Twice"))
  /\ res false (Local "String") (Ok (SID "smithy.api" "String" None, false))
  /\ res true (Local "String") (Ok (SID "example.weather" "String" None, true))
  /\ res true (Local "documentation") (Ok (SID "smithy.api" "documentation" None, false))
  /\ res false (Local "Chart") (Ok (SID "example.weather" "Chart" None, true)).
Proof. repeat split; apply C28_resolution_exact; try exact weather_ok; vm_compute; reflexivity. Qed.

(** A member can be imported, and then a bare shape name resolves to a member id. *)
Theorem C28_resolves_to_shapes_refuted :
  exists (H : Hasher) (b : builder),
    builder_run (start "example.ns") [BoUses "x#Foo$bar"] = Ok b
    /\ resolution b false (Local "Foo") (Ok (SID "x" "Foo" (Some (lit "bar")), false)).
Proof.
  exists zero_hasher. eexists. split; [vm_compute; reflexivity|].
  apply C28_resolution_exact; [|vm_compute; reflexivity].
  split; [|split; [|exact I]]; cbn; [split; [tauto|exact I]|].
  intros k s [E|[]]. injection E as <- <-. split; [reflexivity|]. intros _. eexists. reflexivity.
Qed.
Print Assumptions C28_resolves_to_shapes_refuted.

(* ---------------------------------------------------------------- C29 *)
(** The shape built for a declaration: own id, resolved traits, and the declared body with its
    members, targets and member traits resolved - a set counting as a list. *)
Theorem C29_declared_shape_is_built :
  forall (H : Hasher) (b : builder) (m : model) (k : shape_name) (s : shape_builder) (id : shape_id),
    builder_ok b -> build b = Ok m -> only_declaration b k s id ->
    (sid_member id = None \/ sb_body s = BReference) ->
    exists sh, model_shape m id = Some sh /\ ts_id sh = id
               /\ traits_from b (sb_traits s) (ts_traits sh)
               /\ body_from b (set_as_list (sb_body s)) (ts_body sh).
Proof.
  intros H b m k s id OK B O W. destruct (built_alone b m k s id OK B O W) as (sh & G & Fi & Ft & Fb). exists sh.
  split; [exact G|]. split; [|auto]. destruct O as (_ & O & _). exact (own_id_fun b s _ _ Fi O).
Qed.
Print Assumptions C29_declared_shape_is_built.

(** What is in the model comes from there: a shape has the body of some declaration of its id, or is
    an unresolved shape without traits for a name that was found nowhere; every such name is there;
    version and metadata are those of the builder. *)
Theorem C29_nothing_else_is_built :
  forall (H : Hasher) (b : builder) (m : model),
    builder_ok b -> build b = Ok m ->
    m_version m = bd_version b /\ m_metadata m = bd_metadata b
    /\ (forall id sh, model_shape m id = Some sh ->
          (exists k s id', In (k, s) (bd_shapes b) /\ own_id b s id' /\ sid_key_eqb id' id = true
                           /\ body_from b (set_as_list (sb_body s)) (ts_body sh))
          \/ (ts_traits sh = [] /\ ts_body sh = KUnresolved
              /\ exists k s t n id', In (k, s) (bd_shapes b) /\ In (t, n) (mentions s)
                                     /\ resolution b t n (Ok (id', true)) /\ sid_key_eqb id' id = true))
    /\ (forall k s t n id, In (k, s) (bd_shapes b) -> In (t, n) (mentions s) ->
          resolution b t n (Ok (id, true)) -> model_shape m id <> None).
Proof.
  intros H b m OK B. destruct (built_meta b m OK B) as (_ & V & M). split; [exact V|]. split; [exact M|]. split.
  - intros id sh G. destruct (built_from b m id sh OK B G) as [(k & s & sh' & J & (Fi & _ & Fb) & Q & E)|(x & (t & n & J & R) & Q & ->)].
    + left. exists k, s, (ts_id sh'). rewrite E. auto.
    + right. split; [reflexivity|]. split; [reflexivity|]. unfold all_mentions in J. apply in_flat_map in J as ([k s] & J & Jm).
      exists k, s, t, n, x. auto.
  - intros k s t n id J Jm R. apply (built_unknown b m t n id OK B); [|exact R]. unfold all_mentions. apply in_flat_map. exists (k, s). auto.
Qed.
Print Assumptions C29_nothing_else_is_built.

Definition C29_kind_is_preserved : Prop :=
  forall (H : Hasher) (b : builder) (m : model) (k : shape_name) (s : shape_builder) (id : shape_id),
    builder_ok b -> build b = Ok m -> only_declaration b k s id -> sid_member id = None ->
    exists sh, model_shape m id = Some sh /\ body_from b (sb_body s) (ts_body sh).
Definition sets_b : builder :=
  match @builder_run zero_hasher (start "example.ns") [BoShape (SB (Local "Names") [] (BSet (MB "member" [] (Local "String"))))] with
  | Ok b => b | _ => start "x" end.
Lemma run_ok ns ops b : match @builder_run zero_hasher (start ns) ops with Ok b' => b' | _ => start "x" end = b ->
  Forall op_ok ops -> @builder_ok zero_hasher b.
Proof.
  intros E F. assert (St : forall n, @builder_ok zero_hasher (start n)) by (intros n; split; [exact I|split; [cbn; tauto|exact I]]).
  destruct (builder_run (start ns) ops) as [b'| |] eqn:R; subst b; try apply St. exact (@builder_run_ok zero_hasher ops _ _ F (St ns) R).
Qed.
Lemma sets_ok : @builder_ok zero_hasher sets_b.
Proof. eapply run_ok; [reflexivity|]. repeat constructor; cbn; discriminate. Qed.
Lemma sets_only : @only_declaration zero_hasher sets_b (Local "Names") (SB (Local "Names") [] (BSet (MB "member" [] (Local "String"))))
  (SID "example.ns" "Names" None).
Proof.
  split; [left; reflexivity|]. split.
  - exists false. apply C28_resolution_exact; [exact sets_ok|vm_compute; reflexivity].
  - intros k' s' id' [E|[]] _ _. injection E as <- _. reflexivity.
Qed.
Theorem C29_kind_is_preserved_refuted : ~ C29_kind_is_preserved.
Proof.
  intros C. destruct (@build zero_hasher sets_b) as [m| |] eqn:B; [|vm_compute in B; discriminate|vm_compute in B; discriminate].
  destruct (C zero_hasher sets_b m _ _ _ sets_ok B sets_only eq_refl) as (sh & G & F).
  vm_compute in B. injection B as <-. vm_compute in G. injection G as <-. cbn in F. inversion F.
Qed.
Print Assumptions C29_kind_is_preserved_refuted.

Example C29_ex :
  (exists m, @build zero_hasher sets_b = Ok m)
  /\ @only_declaration zero_hasher sets_b (Local "Names") (SB (Local "Names") [] (BSet (MB "member" [] (Local "String")))) (SID "example.ns" "Names" None)
  /\ match @build zero_hasher weather_b with
     | Ok m => map (fun e => sid_display (fst e)) (m_shapes m)
               = map lit ["example.weather#City"; "geo#Coordinates"; "a#Twice"; "b#Twice"; "example.weather#Names"; "example.weather#Chart"]%string
     | _ => False
     end.
Proof. split; [eexists; vm_compute; reflexivity|]. split; [exact sets_only|vm_compute; reflexivity]. Qed.

(** A shape declared under a bare name is not built under the builder's namespace when a shape with
    that name is imported: it then replaces the imported one. *)
Theorem C29_declared_in_own_namespace_refuted :
  exists (H : Hasher) (b : builder) (m : model),
    builder_run (start "example.ns") [BoUses "other#Foo"; BoShape (SB (Local "Foo") [] (BSimple SString))] = Ok b
    /\ build b = Ok m
    /\ model_shape m (SID "example.ns" "Foo" None) = None
    /\ model_shape m (SID "other" "Foo" None) = Some (Shape (SID "other" "Foo" None) [] (KSimple SString)).
Proof. exists zero_hasher. eexists. eexists. repeat split; vm_compute; reflexivity. Qed.
Print Assumptions C29_declared_in_own_namespace_refuted.

(** When the imported thing is a member, the declaration vanishes although building succeeds. *)
Theorem C29_declaration_kept_refuted :
  exists (H : Hasher) (b : builder) (m : model),
    builder_run (start "example.ns") [BoUses "other#Foo$bar"; BoShape (SB (Local "Foo") [] (BSimple SString))] = Ok b
    /\ build b = Ok m /\ (forall id sh, model_shape m id = Some sh -> ts_body sh <> KSimple SString).
Proof.
  exists zero_hasher. eexists. eexists. split; [vm_compute; reflexivity|]. split; [vm_compute; reflexivity|].
  intros id sh. unfold model_shape. cbn [m_shapes hm_get]. destruct (sid_key_eqb _ id); [|discriminate]. intros [= <-]. discriminate.
Qed.
Print Assumptions C29_declaration_kept_refuted.

(* ---------------------------------------------------------------- C30 *)
(** Building fails exactly because of names: an error is that of a name mentioned in some
    declaration; if building succeeds every name resolves. *)
Theorem C30_errors_are_unresolvable_names :
  forall (H : Hasher) (b : builder),
    builder_ok b ->
    (forall e, build b = Err e ->
       exists k s t n, In (k, s) (bd_shapes b) /\ In (t, n) (mentions s) /\ resolution b t n (Err e))
    /\ (forall m, build b = Ok m ->
          forall k s t n, In (k, s) (bd_shapes b) -> In (t, n) (mentions s) ->
            exists id fresh, resolution b t n (Ok (id, fresh))).
Proof.
  intros H b OK. pose proof (build_spec b OK) as S. split.
  - intros e B. rewrite B in S. destruct S as (t & n & J & R). unfold all_mentions in J. apply in_flat_map in J as ([k s] & J & Jm).
    exists k, s, t, n. auto.
  - intros m B k s t n J Jm. rewrite B in S. destruct S as (shs & rs & _ & _ & _ & _ & RA & _).
    destruct (RA t n) as (id & f & R); [|eauto]. unfold all_mentions. apply in_flat_map. exists (k, s). auto.
Qed.
Print Assumptions C30_errors_are_unresolvable_names.

(** It succeeds when every name resolves, every declaration is well built and no two declarations
    have the same id. *)
Theorem C30_builds :
  forall (H : Hasher) (b : builder),
    builder_ok b ->
    (forall k s, In (k, s) (bd_shapes b) ->
       well_built s /\ (forall t n, In (t, n) (mentions s) -> exists id fresh, resolution b t n (Ok (id, fresh)))
       /\ (forall k' s' id id', In (k', s') (bd_shapes b) -> own_id b s id -> own_id b s' id' -> sid_key_eqb id id' = true -> k' = k)) ->
    exists m, build b = Ok m.
Proof.
  intros H b OK A. destruct (build b) as [m|e|] eqn:B; [eauto| |]; exfalso.
  - destruct (proj1 (C30_errors_are_unresolvable_names H b OK) e B) as (k & s & t & n & J & Jm & R).
    destruct (A k s J) as (_ & N & _). destruct (N t n Jm) as (id & f & R'). pose proof (resolution_fun _ _ _ _ _ R R'). discriminate.
  - destruct (build_panic b OK B) as [(k & s & J & W)|(k1 & s1 & sh1 & k2 & s2 & sh2 & J1 & J2 & N & F1 & F2 & Q & _)].
    + destruct (A k s J) as (W' & _). contradiction.
    + destruct (A k1 s1 J1) as (_ & _ & U). apply N. symmetry. eapply U; [exact J2|apply F1|apply F2|exact Q].
Qed.
Print Assumptions C30_builds.

(** It panics only on a list or set whose member is not called "member", on a service without
    version, or on two structures (or unions) declared with the same id and different member names. *)
Theorem C30_panics_only_if :
  forall (H : Hasher) (b : builder),
    builder_ok b -> build b = Panic ->
    (exists k s, In (k, s) (bd_shapes b) /\ ~ well_built s)
    \/ exists k1 s1 id1 body1 k2 s2 id2 body2,
         In (k1, s1) (bd_shapes b) /\ In (k2, s2) (bd_shapes b) /\ k1 <> k2
         /\ own_id b s1 id1 /\ own_id b s2 id2 /\ sid_key_eqb id1 id2 = true
         /\ body_from b (set_as_list (sb_body s1)) body1 /\ body_from b (set_as_list (sb_body s2)) body2
         /\ names_differ body1 body2.
Proof.
  intros H b OK B. destruct (build_panic b OK B) as [L|(k1 & s1 & sh1 & k2 & s2 & sh2 & J1 & J2 & N & F1 & F2 & Q & M)]; [auto|right].
  exists k1, s1, (ts_id sh1), (ts_body sh1), k2, s2, (ts_id sh2), (ts_body sh2). apply member_mismatch_names in M.
  destruct F1 as (F1 & _ & F1'), F2 as (F2 & _ & F2'). repeat (split; [assumption|]). exact M.
Qed.
Print Assumptions C30_panics_only_if.

(** Not reported: declaring one name twice, ... *)
Theorem C30_duplicate_declaration_reported_refuted :
  exists (H : Hasher) (b : builder) (m : model),
    builder_run (start "example.ns") [BoShape (SB (Local "Foo") [] (BSimple SString)); BoShape (SB (Local "Foo") [] (BSimple SInteger))] = Ok b
    /\ build b = Ok m
    /\ model_shape m (SID "example.ns" "Foo" None) = Some (Shape (SID "example.ns" "Foo" None) [] (KSimple SInteger)).
Proof. exists zero_hasher. eexists. eexists. repeat split; vm_compute; reflexivity. Qed.
Print Assumptions C30_duplicate_declaration_reported_refuted.
(** ... declaring one id twice, once by bare and once by absolute name, with different bodies, ... *)
Theorem C30_conflicting_declaration_reported_refuted :
  exists (H : Hasher) (b : builder) (m : model),
    builder_run (start "example.ns") [BoShape (SB (Local "Foo") [] (BSimple SString));
                                      BoShape (SB (Qualified (SID "example.ns" "Foo" None)) [] (BSimple SInteger))] = Ok b
    /\ build b = Ok m
    /\ (forall id sh, model_shape m id = Some sh -> ts_body sh <> KSimple SInteger).
Proof.
  exists zero_hasher. eexists. eexists. split; [vm_compute; reflexivity|]. split; [vm_compute; reflexivity|].
  intros id sh. unfold model_shape. cbn [m_shapes hm_get]. destruct (sid_key_eqb _ id); [|discriminate]. intros [= <-]. discriminate.
Qed.
Print Assumptions C30_conflicting_declaration_reported_refuted.
(** ... giving one shape the same trait twice with different values. *)
Theorem C30_conflicting_traits_reported_refuted :
  exists (H : Hasher) (b : builder) (m : model) (sh : shape),
    builder_run (start "example.ns") [BoShape (SB (Local "Foo") [doc "one"; doc "two"] (BSimple SString))] = Ok b
    /\ build b = Ok m /\ model_shape m (SID "example.ns" "Foo" None) = Some sh
    /\ ts_traits sh = [(SID "smithy.api" "documentation" None, Some (VString "two"))].
Proof. exists zero_hasher. eexists. eexists. eexists. repeat split; vm_compute; reflexivity. Qed.
Print Assumptions C30_conflicting_traits_reported_refuted.

Example C30_ex :
  (exists k s, In (k, s) (bd_shapes weather_b) /\ length (mentions s) = 5)
  /\ (exists m, @build zero_hasher weather_b = Ok m)
  /\ (exists b, @builder_run zero_hasher (start "example.weather") (weather ++ [BoShape (structure_with "Foo" [("x", "Twice")] [])]%string) = Ok b
                /\ @build zero_hasher b = Err (EAmbiguousShape "Twice"))
  /\ (exists b, @builder_run zero_hasher (start "n") [BoShape (SB (Local "Foo") [] (BService (SvB [] [] [] [])))] = Ok b
                /\ @build zero_hasher b = Panic).
Proof.
  split; [eexists; eexists; split; [left; reflexivity|vm_compute; reflexivity]|].
  split; [eexists; vm_compute; reflexivity|].
  split; eexists; (split; [vm_compute; reflexivity|vm_compute; reflexivity]).
Qed.

(* ---------------------------------------------------------------- C42 *)
(** Applying to an absolute shape id with a declaration of that very name: the trait joins the others
    of that declaration, nothing else changes. Without one: a reference with that trait is added. *)
Theorem C42_apply_absolute :
  forall (H : Hasher) (b : builder) (id : shape_id) (t : trait_builder),
    builder_ok b -> sid_member id = None ->
    (forall s, hm_get name_key_eqb (Qualified id) (bd_shapes b) = Some s ->
       exists b', apply_to b (Qualified id) t = Ok b'
                  /\ hm_get name_key_eqb (Qualified id) (bd_shapes b') = Some (SB (sb_name s) (sb_traits s ++ [t]) (sb_body s))
                  /\ (forall k, name_key_eqb (Qualified id) k = false -> hm_get name_key_eqb k (bd_shapes b') = hm_get name_key_eqb k (bd_shapes b))
                  /\ hm_keys (bd_shapes b') = hm_keys (bd_shapes b))
    /\ (hm_get name_key_eqb (Qualified id) (bd_shapes b) = None ->
        exists b', apply_to b (Qualified id) t = Ok b'
                   /\ bd_shapes b' = bd_shapes b ++ [(Qualified id, SB (Qualified id) [t] BReference)]).
Proof.
  intros H b id t OK M. split.
  - intros s G. cbn [apply_to]. unfold apply_to_qualified. rewrite M, G. eexists. split; [reflexivity|]. cbn [bd_update bd_shapes].
    split; [|split].
    + rewrite hm_get_update by apply name_key_equiv. rewrite (eqv_refl _ name_key_equiv), G. reflexivity.
    + intros k N. rewrite hm_get_update by apply name_key_equiv. rewrite N. reflexivity.
    + apply hm_update_fst.
  - intros G. cbn [apply_to]. unfold apply_to_qualified. rewrite M, G. eexists. split; [reflexivity|]. cbn. apply hm_insert_fresh, G.
Qed.
Print Assumptions C42_apply_absolute.

(** Applied to a member: the trait is added to that member of the shape declared under the absolute name,
    and nothing else changes; if there is no such shape or member the call panics. *)
Lemma update_first_spec m t l :
  match update_first (fun x => ident_eqb (mb_name x) m) (fun x => mb_apply x t) l with
  | Some l' => in_first m t l l'
  | None => forall y, In y l -> ~ same_name (mb_name y) m
  end.
Proof.
  induction l as [|x l IH]; cbn [update_first]; [intros y []|]. destruct (ident_eqb (mb_name x) m) eqn:E.
  - apply ident_eqb_spec in E. exists [], x, (mb_apply x t), l. repeat split; auto.
  - assert (N : ~ same_name (mb_name x) m) by (intros S; apply ident_eqb_spec in S; congruence).
    destruct (update_first _ _ l) as [l'|]; cbn [option_map].
    + destruct IH as (b & y & y' & a & -> & -> & W & S & B). exists (x :: b), y, y', a. split; [reflexivity|]. split; [reflexivity|]. split; [exact W|].
      split; [exact S|]. intros z [<-|I]; auto.
    + intros y [<-|I]; auto.
Qed.
Lemma apply_to_member_spec s m t :
  match apply_to_member s m t with
  | Some s' => sb_name s' = sb_name s /\ sb_traits s' = sb_traits s /\ member_traited m t (sb_body s) (sb_body s')
  | None => forall body, ~ member_traited m t (sb_body s) body
  end.
Proof.
  assert (W : forall x, with_trait t x (mb_apply x t)) by (intros x; repeat split).
  assert (NF : forall l l', (forall y, In y l -> ~ same_name (mb_name y) m) -> ~ in_first m t l l').
  { intros l l' N (b & x & x' & a & -> & _ & _ & S & _). eapply N; [|exact S]. apply in_app_iff. right. now left. }
  unfold apply_to_member. destruct (sb_body s) as [x|mb|mb|k v|l|l|x|x|x|] eqn:E; cbn [option_map]; try (intros body X; inversion X; fail).
  - destruct (str_eqb m (lit "member")) eqn:M; cbn [option_map].
    + apply str_eqb_eq in M. cbn. repeat split. constructor; auto.
    + apply str_eqb_neq in M. intros body X. inversion X; contradiction.
  - destruct (str_eqb m (lit "member")) eqn:M; cbn [option_map].
    + apply str_eqb_eq in M. cbn. repeat split. constructor; auto.
    + apply str_eqb_neq in M. intros body X. inversion X; contradiction.
  - destruct (str_eqb m (lit "key")) eqn:M; cbn [option_map]; [|destruct (str_eqb m (lit "value")) eqn:M2; cbn [option_map]].
    + apply str_eqb_eq in M. split; [reflexivity|]. split; [reflexivity|]. apply mt_key; auto.
    + apply str_eqb_eq in M2. split; [reflexivity|]. split; [reflexivity|]. apply mt_value; auto.
    + apply str_eqb_neq in M, M2. intros body X. inversion X; contradiction.
  - pose proof (update_first_spec m t l) as U. destruct (update_first _ _ l) as [l'|]; cbn [option_map].
    + split; [reflexivity|]. split; [reflexivity|]. constructor. exact U.
    + intros body X. inversion X; subst. eapply NF; eauto.
  - pose proof (update_first_spec m t l) as U. destruct (update_first _ _ l) as [l'|]; cbn [option_map].
    + split; [reflexivity|]. split; [reflexivity|]. constructor. exact U.
    + intros body X. inversion X; subst. eapply NF; eauto.
Qed.
Theorem C42_apply_to_a_member :
  forall (H : Hasher) (b : builder) (ns name m : str) (t : trait_builder),
    builder_ok b ->
    let shape := Qualified (SID ns name None) in
    match apply_to b (Qualified (SID ns name (Some m))) t with
    | Ok b' =>
        exists s s', hm_get name_key_eqb shape (bd_shapes b) = Some s /\ hm_get name_key_eqb shape (bd_shapes b') = Some s'
          /\ sb_name s' = sb_name s /\ sb_traits s' = sb_traits s /\ member_traited m t (sb_body s) (sb_body s')
          /\ (forall k, name_key_eqb shape k = false -> hm_get name_key_eqb k (bd_shapes b') = hm_get name_key_eqb k (bd_shapes b))
          /\ hm_keys (bd_shapes b') = hm_keys (bd_shapes b)
    | Err _ => False
    | Panic =>
        forall s, hm_get name_key_eqb shape (bd_shapes b) = Some s -> forall body, ~ member_traited m t (sb_body s) body
    end.
Proof.
  intros H b ns name m t OK shape. cbn [apply_to]. unfold apply_to_qualified. cbn [sid_member].
  change (sid_shape_only (SID ns name (Some m))) with (SID ns name None). fold shape. cbv zeta. destruct (hm_get name_key_eqb shape (bd_shapes b)) as [s|] eqn:G; [|intros s [=]].
  pose proof (apply_to_member_spec s m t) as A. destruct (apply_to_member s m t) as [s'|].
  - exists s, s'. split; [reflexivity|]. cbn [bd_update bd_shapes]. split; [|destruct A as (A1 & A2 & A3); split; [exact A1|]; split; [exact A2|]; split; [exact A3|]; split].
    + rewrite hm_get_update by apply name_key_equiv. rewrite (eqv_refl _ name_key_equiv), G. reflexivity.
    + intros k N. rewrite hm_get_update by apply name_key_equiv. rewrite N. reflexivity.
    + apply hm_update_fst.
  - intros s0 [= <-]. exact A.
Qed.
Print Assumptions C42_apply_to_a_member.
Example C42_member_ex :
  exists b, @builder_run zero_hasher (start "example.ns")
     [BoShape (SB (Qualified (SID "example.ns" "Bar" None)) [] (BMap (MB (lit "key") [] (Local "String")) (MB (lit "value") [] (Local "String"))));
      BoApply "example.ns#Bar$key" (doc "a key")] = Ok b
    /\ bd_shapes b = [(Qualified (SID "example.ns" "Bar" None),
         SB (Qualified (SID "example.ns" "Bar" None)) [] (BMap (MB (lit "key") [doc "a key"] (Local "String")) (MB (lit "value") [] (Local "String"))))].
Proof. eexists. split; vm_compute; reflexivity. Qed.

(** When a shape is declared and also referenced (as [apply] to a bare name leaves it), the model has
    the declared body, and if the traits of the two are compatible, the combined traits. *)
Theorem C42_applied_traits_reach_the_shape :
  forall (H : Hasher) (b : builder) (m : model) (k1 k2 : shape_name) (s1 s2 : shape_builder) (id : shape_id),
    builder_ok b -> imports_plain b -> trait_values_ok s1 -> trait_values_ok s2 ->
    build b = Ok m -> declared_and_referenced b k1 s1 k2 s2 id ->
    exists sh declared applied,
      model_shape m id = Some sh
      /\ traits_from b (sb_traits s1) declared /\ traits_from b (sb_traits s2) applied
      /\ body_from b (set_as_list (sb_body s1)) (ts_body sh)
      /\ (traits_compatible declared applied -> traits_combined declared applied (ts_traits sh)).
Proof.
  intros H b m k1 k2 s1 s2 id OK IP V1 V2 B D.
  destruct (built_pair b m k1 s1 k2 s2 id OK IP V1 V2 B D) as (sh1 & sh2 & sh & (_ & T1 & B1) & (_ & T2 & _) & G & E & C).
  exists sh, (ts_traits sh1), (ts_traits sh2). rewrite E. auto.
Qed.
Print Assumptions C42_applied_traits_reach_the_shape.

(** How a new reference (from [uses], or from [apply] to a shape not in the builder) changes the
    meaning of names: bare names spelled like it now mean it - or have become ambiguous. All other
    names keep their meaning. *)
Theorem C42_reference_captures_its_name :
  forall (H : Hasher) (b : builder) (q : shape_id) (ts : list trait_builder) (t : bool) (n : shape_name) (r : result (shape_id * bool)),
    builder_ok b -> hm_get name_key_eqb (Qualified q) (bd_shapes b) = None ->
    let b' := bd_insert b (SB (Qualified q) ts BReference) in
    (match n with Local x => ~ same_name (sid_name q) x | Qualified _ => True end -> (resolution b' t n r <-> resolution b t n r))
    /\ (forall x, n = Local x -> same_name (sid_name q) x ->
          (forall q', ~ import_of b x q') -> resolution b' t n (Ok (q, false)))
    /\ (forall x q', n = Local x -> same_name (sid_name q) x -> import_of b x q' -> resolution b' t n (Err (EAmbiguousShape x))).
Proof.
  intros H b q ts t n r OK G b'. pose proof (fun r => resolution_reference b q ts t n r OK G) as R. fold b' in R || idtac.
  unfold with_reference in R. fold b' in R. split; [|split].
  - intros N. rewrite R. destruct n as [|x]; [reflexivity|]. destruct (ident_eqb (sid_name q) x) eqn:E; [|reflexivity].
    apply ident_eqb_spec in E. contradiction.
  - intros x -> S N. apply R. apply ident_eqb_spec in S. rewrite S. right. auto.
  - intros x q' -> S J. apply R. apply ident_eqb_spec in S. rewrite S. left. eauto.
Qed.
Print Assumptions C42_reference_captures_its_name.

(** So applying a trait to another namespace's Foo makes the local declaration of Foo disappear
    into it, ... *)
Theorem C42_apply_elsewhere_is_harmless_refuted :
  exists (H : Hasher) (b : builder) (m : model),
    builder_run (start "example.ns")
      [BoShape (SB (Local "Foo") [] (BSimple SString));
       BoShape (structure_with "Bar" [("foo", "Foo")]%string []);
       BoApply "other#Foo" (doc "not ours")] = Ok b
    /\ build b = Ok m
    /\ model_shape m (SID "example.ns" "Foo" None) = None
    /\ model_shape m (SID "other" "Foo" None) <> None.
Proof. exists zero_hasher. eexists. eexists. do 3 (split; [vm_compute; reflexivity|]). vm_compute. discriminate. Qed.
Print Assumptions C42_apply_elsewhere_is_harmless_refuted.
(** ... a conflicting value is dropped without an error, ... *)
Theorem C42_conflict_reported_refuted :
  exists (H : Hasher) (b : builder) (m : model) (sh : shape),
    builder_run (start "example.ns") [BoShape (SB (Local "Foo") [doc "one"] (BSimple SString)); BoApply "Foo" (doc "two")] = Ok b
    /\ build b = Ok m /\ model_shape m (SID "example.ns" "Foo" None) = Some sh
    /\ ts_traits sh = [(SID "smithy.api" "documentation" None, Some (VString "one"))].
Proof. exists zero_hasher. eexists. eexists. eexists. repeat split; vm_compute; reflexivity. Qed.
Print Assumptions C42_conflict_reported_refuted.
(** ... and a member of a shape declared under its bare name cannot be reached at all: the call panics. *)
Theorem C42_members_can_be_reached_refuted :
  exists (H : Hasher), 
    builder_run (start "example.ns") [BoShape (structure_with "Bar" [("foo", "String")]%string []); BoApply "example.ns#Bar$foo" (doc "a foo")] = Panic.
Proof. exists zero_hasher. vm_compute. reflexivity. Qed.
Print Assumptions C42_members_can_be_reached_refuted.

(** Non-vacuity: a declaration and an applied trait. *)
Definition applied_b : builder :=
  match @builder_run zero_hasher (start "example.ns")
          [BoShape (SB (Local "Foo") [doc "one"] (BSimple SString)); BoApply "Foo" (TB (Local "deprecated") None)] with
  | Ok b => b | _ => start "x" end.
Example C42_ex :
  exists s1 s2, @builder_ok zero_hasher applied_b /\ imports_plain applied_b
    /\ trait_values_ok s1 /\ trait_values_ok s2
    /\ @declared_and_referenced zero_hasher applied_b (Local "Foo") s1 (Qualified (SID "example.ns" "Foo" None)) s2 (SID "example.ns" "Foo" None)
    /\ match @build zero_hasher applied_b with
       | Ok m => option_map (fun sh => map (fun t => sid_display (fst t)) (ts_traits sh)) (@model_shape zero_hasher m (SID "example.ns" "Foo" None))
                 = Some (map lit ["smithy.api#documentation"; "smithy.api#deprecated"]%string)
       | _ => False
       end.
Proof.
  exists (SB (Local "Foo") [doc "one"] (BSimple SString)),
    (SB (Qualified (SID "example.ns" "Foo" None)) [TB (Local "deprecated") None] BReference).
  assert (OK : @builder_ok zero_hasher applied_b) by (eapply run_ok; [reflexivity|]; repeat constructor; cbn; discriminate).
  split; [exact OK|]. split; [|split; [|split; [|split]]].
  - intros q (s & [E|[E|[]]] & R); injection E as E1 E2; subst s; try discriminate. subst q. reflexivity.
  - repeat constructor.
  - repeat constructor.
  - split; [left; reflexivity|]. split; [right; left; reflexivity|]. split; [discriminate|]. split; [|split; [reflexivity|split]].
    + exists false. apply C28_resolution_exact; [exact OK|vm_compute; reflexivity].
    + exists (SID "example.ns" "Foo" None). split; reflexivity.
    + intros k s id' [E|[E|[]]] _ _; injection E as E1 _; auto.
  - vm_compute. reflexivity.
Qed.
