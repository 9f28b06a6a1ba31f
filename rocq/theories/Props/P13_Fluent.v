(** C43: the fluent builders of shapes; C44: the constructors of prelude traits
    (atelier-core/src/builder/shapes.rs, traits.rs). *)
From Verif.Model Require Import Fluent.
From Verif.Spec Require Import FluentSpec Witness.
From Verif.Proofs Require Import BaseFacts IdentityFacts HashMapFacts FluentFacts.

(* ---------------------------------------------------------------- C43 *)
(** A chain of calls on a service builder panics exactly when a text is not a name; otherwise the
    builder holds what the calls said: the last version, the operations and resources in the order of the
    calls, the renames (the last one for each id) and the traits. *)
Theorem C43_service_chain :
  forall (H : Hasher) (name version : str) (cs : list service_call),
    let r := rbind (service_new name version) (fun b0 => chain service_step b0 cs) in
    ((exists b, r = Ok b) <-> is_name name /\ Forall sv_call_ok cs)
    /\ (forall e, r <> Err e)
    /\ (forall b, r = Ok b ->
          names name (sb_name b) /\ sb_traits b = sv_traits cs
          /\ exists s ps, sb_body b = BService s
             /\ svb_version s = last (sv_versions cs) version
             /\ Forall2 names (sv_ops cs) (svb_operations s)
             /\ Forall2 names (sv_ress cs) (svb_resources s)
             /\ svb_renames s = hm_from_list sid_key_eqb ps
             /\ Forall2 (fun t p => valid_id (fst p) /\ fst t = id_text (fst p) /\ is_identifier (snd p) /\ snd t = snd p) (sv_renamed cs) ps).
Proof.
  intros H name version cs. unfold service_new. destruct (parse_name_spec name) as [(n & Hn & P)|(Hn & P)]; rewrite P; cbn [rbind].
  - pose proof (service_chain cs (SB n [] (BService (SvB version [] [] []))) _ eq_refl) as R. cbv zeta.
    destruct (chain service_step _ cs) as [b'| |]; [|contradiction|].
    + destruct R as (F & N & T & ns & rs & ps & B & A1 & A2 & A3). split; [split; [intros _; split; [exists n|]; auto|eauto]|]. split; [discriminate|].
      intros b [= <-]. rewrite N, T. split; [exact Hn|]. split; [reflexivity|]. eexists. exists ps. split; [exact B|]. repeat split; auto.
    + split; [split; [intros [b E]; discriminate|intros [_ F]; contradiction]|]. split; discriminate.
  - cbv zeta. split; [split; [intros [b E]; discriminate|intros [F _]; contradiction]|]. split; discriminate.
Qed.
Print Assumptions C43_service_chain.

(** The same for operations: the last input and output, all errors. *)
Theorem C43_operation_chain :
  forall (name : str) (cs : list operation_call),
    let r := rbind (operation_new name) (fun b0 => chain operation_step b0 cs) in
    ((exists b, r = Ok b) <-> is_name name /\ Forall op_call_ok cs)
    /\ (forall e, r <> Err e)
    /\ (forall b, r = Ok b ->
          names name (sb_name b) /\ sb_traits b = op_traits cs
          /\ exists o, sb_body b = BOperation o
             /\ opt_rel names (latest (op_inputs cs)) (opb_input o)
             /\ opt_rel names (latest (op_outputs cs)) (opb_output o)
             /\ Forall2 names (op_errs cs) (opb_errors o)).
Proof.
  assert (L : forall ts new, opt_after ts None new -> opt_rel names (latest ts) new).
  { intros ts new. unfold opt_after. destruct (latest ts); [intros (n & -> & N); exact N|intros ->; exact I]. }
  intros name cs. unfold operation_new. destruct (parse_name_spec name) as [(n & Hn & P)|(Hn & P)]; rewrite P; cbn [rbind].
  - pose proof (operation_chain cs (SB n [] (BOperation (OpB None None []))) _ eq_refl) as R. cbv zeta.
    destruct (chain operation_step _ cs) as [b'| |]; [|contradiction|].
    + destruct R as (F & N & T & o & es & B & A1 & A2 & A3 & A4). split; [split; [intros _; split; [exists n|]; auto|eauto]|]. split; [discriminate|].
      intros b [= <-]. rewrite N, T. split; [exact Hn|]. split; [reflexivity|]. exists o. split; [exact B|]. cbn in A3. subst. auto.
    + split; [split; [intros [b E]; discriminate|intros [_ F]; contradiction]|]. split; discriminate.
  - cbv zeta. split; [split; [intros [b E]; discriminate|intros [F _]; contradiction]|]. split; discriminate.
Qed.
Print Assumptions C43_operation_chain.

(** The same for resources: the last of each lifecycle operation, all others, and the identifiers. *)
Theorem C43_resource_chain :
  forall (H : Hasher) (name : str) (cs : list resource_call),
    let r := rbind (resource_new name) (fun b0 => chain resource_step b0 cs) in
    ((exists b, r = Ok b) <-> is_name name /\ Forall rs_call_ok cs)
    /\ (forall e, r <> Err e)
    /\ (forall b, r = Ok b ->
          names name (sb_name b) /\ sb_traits b = rs_traits cs
          /\ exists r ps, sb_body b = BResource r
             /\ (forall a, opt_rel names (latest (rs_lifecycle a cs)) (lifecycle_of a r))
             /\ (forall g, Forall2 names (rs_group g cs) (group_of g r))
             /\ rsb_identifiers r = hm_from_list ident_key_eqb ps
             /\ Forall2 (fun t p => is_identifier (fst p) /\ fst t = fst p /\ names (snd t) (snd p)) (rs_idents cs) ps).
Proof.
  intros H name cs. unfold resource_new. destruct (parse_name_spec name) as [(n & Hn & P)|(Hn & P)]; rewrite P; cbn [rbind].
  - pose proof (resource_chain cs (SB n [] (BResource (RsB [] None None None None None None [] [] []))) _ eq_refl) as R. cbv zeta.
    destruct (chain resource_step _ cs) as [b'| |]; [|contradiction|].
    + destruct R as (F & N & T & o & ps & B & A1 & A2 & A3 & A4). split; [split; [intros _; split; [exists n|]; auto|eauto]|]. split; [discriminate|].
      intros b [= <-]. rewrite N, T. split; [exact Hn|]. split; [reflexivity|]. exists o, ps. split; [exact B|]. split; [|split; [|auto]].
      * intros a. specialize (A1 a). unfold opt_after in A1. destruct (latest _); [destruct A1 as (x & -> & X); exact X|].
        rewrite A1. destruct a; exact I.
      * intros g. destruct (A2 g) as (ns & Q & X). rewrite Q. destruct g; exact X.
    + split; [split; [intros [b E]; discriminate|intros [_ F]; contradiction]|]. split; discriminate.
  - cbv zeta. split; [split; [intros [b E]; discriminate|intros [F _]; contradiction]|]. split; discriminate.
Qed.
Print Assumptions C43_resource_chain.

(** The same for structures, and for unions made from the same builder: all members in order. *)
Theorem C43_structure_chain :
  forall (name : str) (cs : list structure_call),
    let r := rbind (structure_new name) (fun b0 => chain structure_step b0 cs) in
    ((exists b, r = Ok b) <-> is_name name /\ Forall st_call_ok cs)
    /\ (forall e, r <> Err e)
    /\ (forall b, r = Ok b ->
          names name (sb_name b) /\ sb_traits b = st_traits cs
          /\ exists ms, st_adds cs ms /\ sb_body b = BStructure ms
             /\ as_union b = SB (sb_name b) (sb_traits b) (BUnion ms)).
Proof.
  intros name cs. unfold structure_new. fold (parse_name name). destruct (parse_name_spec name) as [(n & Hn & P)|(Hn & P)]; rewrite P; cbn [rbind].
  - pose proof (structure_chain cs (SB n [] (BStructure [])) _ eq_refl) as R. cbv zeta.
    destruct (chain structure_step _ cs) as [b'| |]; [|contradiction|].
    + destruct R as (F & N & T & ms & B & A). split; [split; [intros _; split; [exists n|]; auto|eauto]|]. split; [discriminate|].
      intros b [= <-]. rewrite N, T. split; [exact Hn|]. split; [reflexivity|]. exists ms. cbn in B. split; [exact A|]. split; [exact B|].
      unfold as_union. rewrite B, N, T. reflexivity.
    + split; [split; [intros [b E]; discriminate|intros [_ F]; contradiction]|]. split; discriminate.
  - cbv zeta. split; [split; [intros [b E]; discriminate|intros [F _]; contradiction]|]. split; discriminate.
Qed.
Print Assumptions C43_structure_chain.

(** Lists, sets and maps: their members have the fixed names; setting one keeps the rest. *)
Theorem C43_collections :
  forall (name target key value : str),
    ((exists b, list_new name target = Ok b) <-> is_name name /\ is_name target)
    /\ (forall b, list_new name target = Ok b ->
          exists n t, names name n /\ names target t /\ b = SB n [] (BList (MB (lit "member") [] t))
            /\ as_set b = SB n [] (BSet (MB (lit "member") [] t))
            /\ forall m, list_target b m = SB n [] (BList m) /\ list_target (as_set b) m = SB n [] (BSet m))
    /\ ((exists b, map_new name key value = Ok b) <-> is_name name /\ is_name key /\ is_name value)
    /\ (forall b, map_new name key value = Ok b ->
          exists n k v, names name n /\ names key k /\ names value v
            /\ b = SB n [] (BMap (MB (lit "key") [] k) (MB (lit "value") [] v))
            /\ forall m, map_key b m = SB n [] (BMap m (MB (lit "value") [] v))
                         /\ map_value b m = SB n [] (BMap (MB (lit "key") [] k) m)).
Proof.
  assert (W : forall s, is_identifier s -> forall t, (exists tn, names t tn /\ member_new s t = Ok (MB s [] tn)) \/ (~ is_name t /\ member_new s t = Panic)).
  { intros s I t. destruct (member_new_spec s t) as [(tn & _ & N & P)|(N & P)]; [left; eauto|right; split; [tauto|exact P]]. }
  assert (I1 : is_identifier (lit "member")) by (apply ident_is_valid_spec; vm_compute; reflexivity).
  assert (I2 : is_identifier (lit "key")) by (apply ident_is_valid_spec; vm_compute; reflexivity).
  assert (I3 : is_identifier (lit "value")) by (apply ident_is_valid_spec; vm_compute; reflexivity).
  intros name target key value. unfold list_new, map_new. fold (parse_name name).
  assert (NO : forall A (P : A -> Prop), (exists b, @Panic A = Ok b) -> False) by (intros A P [b E]; discriminate).
  destruct (parse_name_spec name) as [(n & Hn & P)|(Hn & P)]; rewrite P; cbn [rbind].
  - assert (Nn : is_name name) by (exists n; exact Hn). split; [|split; [|split]].
    + destruct (W _ I1 target) as [(t & N & Q)|(N & Q)]; rewrite Q; cbn [rbind].
      * split; [intros _; split; [exact Nn|exists t; exact N]|eauto].
      * split; [intros [b E]; discriminate|tauto].
    + destruct (W _ I1 target) as [(t & N & Q)|(N & Q)]; rewrite Q; cbn [rbind]; [|discriminate].
      intros b [= <-]. exists n, t. repeat split; auto.
    + destruct (W _ I2 key) as [(k & N & Q)|(N & Q)]; rewrite Q; cbn [rbind]; [|split; [intros [b E]; discriminate|tauto]].
      destruct (W _ I3 value) as [(v & N' & Q')|(N' & Q')]; rewrite Q'; cbn [rbind]; [|split; [intros [b E]; discriminate|tauto]].
      split; [intros _; split; [exact Nn|]; split; [exists k; exact N|exists v; exact N']|eauto].
    + destruct (W _ I2 key) as [(k & N & Q)|(N & Q)]; rewrite Q; cbn [rbind]; [|discriminate].
      destruct (W _ I3 value) as [(v & N' & Q')|(N' & Q')]; rewrite Q'; cbn [rbind]; [|discriminate].
      intros b [= <-]. exists n, k, v. repeat split; auto.
  - split; [split; [intros [b E]; discriminate|tauto]|]. split; [discriminate|]. split; [split; [intros [b E]; discriminate|tauto]|discriminate].
Qed.
Print Assumptions C43_collections.

(** Members on their own: the member has the given name and target, or that of the simple type in the prelude,
    whatever the builder it is put in imports or declares. *)
Theorem C43_members :
  forall (name : str) (s : simple) (t : shape_name),
    (is_identifier name ->
       member_with_target name t = Ok (MB name [] t)
       /\ member_simple name s = Ok (MB name [] (Qualified (SID "smithy.api" (simple_shape_name s) None))))
    /\ (~ is_identifier name -> member_with_target name t = Panic /\ member_simple name s = Panic)
    /\ ((exists b, list_with_target name t = Ok b) <-> is_name name)
    /\ (forall b, list_with_target name t = Ok b -> exists n, names name n /\ b = SB n [] (BList (MB (lit "member") [] t)))
    /\ ((exists b, simple_new name s = Ok b) <-> is_name name)
    /\ (forall b, simple_new name s = Ok b -> exists n, names name n /\ b = SB n [] (BSimple s)).
Proof.
  intros name s t. assert (I1 : is_identifier (lit "member")) by (apply ident_is_valid_spec; vm_compute; reflexivity).
  unfold list_with_target, member_with_target, member_simple, simple_new. fold (parse_name name).
  destruct (parse_ident (lit "member")) as [[_ PM]|[N _]]; [|contradiction]. rewrite PM. cbn [rbind].
  split; [|split; [|split; [|split; [|split]]]].
  - intros I. destruct (parse_ident name) as [[_ P]|[N _]]; [|contradiction]. rewrite P. cbn [rbind]. split; [reflexivity|]. destruct s; reflexivity.
  - intros I. destruct (parse_ident name) as [[J _]|[_ P]]; [contradiction|]. rewrite P. split; reflexivity.
  - destruct (parse_name_spec name) as [(n & Hn & P)|(Hn & P)]; rewrite P; cbn [rbind]; [split; [intros _; exists n; exact Hn|eauto]|split; [intros [b E]; discriminate|tauto]].
  - destruct (parse_name_spec name) as [(n & Hn & P)|(Hn & P)]; rewrite P; cbn [rbind]; [intros b [= <-]; eauto|discriminate].
  - destruct (parse_name_spec name) as [(n & Hn & P)|(Hn & P)]; rewrite P; cbn [rbind]; [split; [intros _; exists n; exact Hn|eauto]|split; [intros [b E]; discriminate|tauto]].
  - destruct (parse_name_spec name) as [(n & Hn & P)|(Hn & P)]; rewrite P; cbn [rbind]; [intros b [= <-]; eauto|discriminate].
Qed.
Print Assumptions C43_members.

Example C43_ex :
  let calls := [RsLifecycle LRead (lit "Old"); RsIdentifier "id" "CityId"; RsMany GOperations [lit "a#One"; lit "Two"];
                RsLifecycle LRead (lit "GetCity"); RsTrait (TB (Local "title") None)] in
  Forall rs_call_ok calls /\ is_name "City"
  /\ exists b, rbind (resource_new "City") (fun b0 => chain (@resource_step zero_hasher) b0 calls) = Ok b
       /\ sb_body b = BResource (RsB [(lit "id", Local "CityId")] None None (Some (Local "GetCity")) None None None
                                     [Qualified (SID "a" "One" None); Local "Two"] [] []).
Proof.
  assert (R : exists b, rbind (resource_new "City") (fun b0 => chain (@resource_step zero_hasher) b0
                [RsLifecycle LRead (lit "Old"); RsIdentifier "id" "CityId"; RsMany GOperations [lit "a#One"; lit "Two"];
                RsLifecycle LRead (lit "GetCity"); RsTrait (TB (Local "title") None)]) = Ok b) by (eexists; vm_compute; reflexivity).
  cbv zeta. assert (Q := proj1 (proj1 (C43_resource_chain zero_hasher _ _)) R). destruct Q as [Q1 Q2]. split; [exact Q2|]. split; [exact Q1|].
  eexists. split; vm_compute; reflexivity.
Qed.

(* ---------------------------------------------------------------- C44 *)
(** A constructor of a prelude trait panics exactly when its arguments are not acceptable; the trait it
    makes is the one meant, whatever is imported or declared, with the value meant. Lengths and limits
    of 2^63 and more come out negative. *)
Definition two_complement (n m : Z) : Prop := ((n < 2 ^ 63 /\ m = n) \/ (2 ^ 63 <= n /\ m = n - 2 ^ 64))%Z.
Lemma get_insert (o : list (str * value)) k k' v : hm_get str_eqb k' (hm_insert str_eqb k v o) = if str_eqb k' k then Some v else hm_get str_eqb k' o.
Proof. rewrite hm_get_insert by apply str_eqb_equiv. rewrite str_eqb_sym. reflexivity. Qed.
Lemma from_list_latest (l : list (str * str)) : forall (o : list (str * value)) k,
  hm_get str_eqb k (fold_left (fun m kv => hm_insert str_eqb (fst kv) (snd kv) m) (map (fun e => (fst e, VString (snd e))) l) o)
  = match latest (map snd (filter (fun e => str_eqb (fst e) k) l)) with Some s => Some (VString s) | None => hm_get str_eqb k o end.
Proof.
  induction l as [|[k' v] l IH]; intros o k; cbn [map filter fold_left fst snd]; [reflexivity|]. rewrite IH, get_insert. rewrite (str_eqb_sym k k').
  destruct (str_eqb k' k); cbn [map snd]; [rewrite latest_cons; destruct (latest _); reflexivity|reflexivity].
Qed.
Lemma usize_fits n : usize n -> two_complement n (usize_as_i64 n).
Proof. intros [A B]. unfold usize_as_i64, two_complement. destruct (Z.leb_spec n 0x7FFFFFFFFFFFFFFF); [left|right]; lia. Qed.
Lemma limits_object a b : opt_usize a -> opt_usize b -> forall k,
  match hm_get str_eqb k (opt_integer (opt_integer [] "min" a) "max" b) with
  | None => (k = lit "min" -> a = None) /\ (k = lit "max" -> b = None)
  | Some v => exists n m, v = VNumber (NInteger m) /\ two_complement n m /\ (k = lit "min" /\ a = Some n \/ k = lit "max" /\ b = Some n)
  end.
Proof.
  intros A B k. unfold opt_integer, ob_integer, ob_insert.
  destruct b as [b|]; [rewrite get_insert; destruct (str_eqb k (lit "max")) eqn:E|].
  - apply str_eqb_eq in E as ->. exists b, (usize_as_i64 b). split; [reflexivity|]. split; [apply usize_fits, B|auto].
  - apply str_eqb_neq in E. destruct a as [a|]; [rewrite get_insert; destruct (str_eqb k (lit "min")) eqn:E2|].
    + apply str_eqb_eq in E2 as ->. exists a, (usize_as_i64 a). split; [reflexivity|]. split; [apply usize_fits, A|auto].
    + apply str_eqb_neq in E2. cbn [hm_get]. split; congruence.
    + cbn [hm_get]. split; congruence.
  - destruct a as [a|]; [rewrite get_insert; destruct (str_eqb k (lit "min")) eqn:E2|].
    + apply str_eqb_eq in E2 as ->. exists a, (usize_as_i64 a). split; [reflexivity|]. split; [apply usize_fits, A|auto].
    + apply str_eqb_neq in E2. cbn [hm_get]. split; congruence.
    + cbn [hm_get]. split; congruence.
Qed.
Lemma prelude_trait_new n v : is_identifier (lit n) -> trait_new (prelude_name n) v = Ok (TB (Qualified (SID "smithy.api" n None)) v).
Proof.
  intros I. unfold trait_new. change (unwrap (shape_name_from_str (prelude_name n))) with (parse_name (prelude_name n)).
  assert (V : valid_id (SID "smithy.api" n None)).
  { split; [|split; [exact I|exact Logic.I]]. apply ns_is_valid_spec. vm_compute. reflexivity. }
  destruct (parse_name_spec (prelude_name n)) as [(x & N & P)|(N & _)].
  - rewrite P. cbn [rbind]. rewrite (names_fun _ _ (Qualified (SID "smithy.api" n None)) N); [reflexivity|]. split; [exact V|].
    unfold prelude_name, id_text. cbn [sid_ns sid_name sid_member]. rewrite app_nil_r. reflexivity.
  - exfalso. apply N. exists (Qualified (SID "smithy.api" n None)). split; [exact V|].
    unfold prelude_name, id_text. cbn [sid_ns sid_name sid_member]. rewrite app_nil_r. reflexivity.
Qed.
Theorem C44_trait_constructors :
  forall (c : trait_call), arguments_typed c ->
    ((exists t, make_trait c = Ok t) <-> accepted c)
    /\ (forall e, make_trait c <> Err e)
    /\ (forall t, make_trait c = Ok t ->
          value_meant two_complement c (tb_value t)
          /\ forall (H : Hasher) (b : builder), names_to b true (tb_id t) (SID "smithy.api" (trait_meant c) None)).
Proof.
  intros c Ty.
  assert (Go : forall v, is_identifier (lit (trait_meant c)) -> accepted c -> value_meant two_complement c v ->
    make_trait c = trait_new (prelude_name (trait_meant c)) v ->
    ((exists t, make_trait c = Ok t) <-> accepted c)
    /\ (forall e, make_trait c <> Err e)
    /\ (forall t, make_trait c = Ok t ->
          value_meant two_complement c (tb_value t)
          /\ forall (H : Hasher) (b : builder), names_to b true (tb_id t) (SID "smithy.api" (trait_meant c) None))).
  { intros v I A V E. rewrite E, (prelude_trait_new _ _ I). split; [split; [auto|eauto]|]. split; [discriminate|].
    intros t [= <-]. split; [exact V|]. intros H b. exists false. constructor. reflexivity. }
  assert (No : make_trait c = Panic -> ~ accepted c -> ((exists t, make_trait c = Ok t) <-> accepted c)
    /\ (forall e, make_trait c <> Err e)
    /\ (forall t, make_trait c = Ok t ->
          value_meant two_complement c (tb_value t)
          /\ forall (H : Hasher) (b : builder), names_to b true (tb_id t) (SID "smithy.api" (trait_meant c) None))).
  { intros E N. rewrite E. split; [split; [intros [t X]; discriminate|contradiction]|]. split; discriminate. }
  assert (I : is_identifier (lit (trait_meant c))) by (apply ident_is_valid_spec; destruct c; vm_compute; reflexivity).
  destruct c as [|m s|v|e|m| |mn mx|v|v| |it ot it' ps|p| |mn mx|v|v| |v| | | | |d|tags|t| | |]; cbn [arguments_typed] in Ty.
  - eapply Go; [exact I|exact Logic.I|apply vm_annotation; cbn; tauto|reflexivity].
  - eapply Go; [exact I|exact Logic.I| |reflexivity]. apply vm_deprecated. intros k. unfold opt_string, ob_string, ob_insert.
    destruct s as [s|], m as [m|]; rewrite ?get_insert; destruct (str_eqb k (lit "since")) eqn:E1; destruct (str_eqb k (lit "message")) eqn:E2; try reflexivity;
      apply str_eqb_eq in E1, E2; subst; discriminate.
  - eapply Go; [exact I|exact Logic.I|apply (vm_text _ _ v); cbn; tauto|reflexivity].
  - destruct e; (eapply Go; [exact I|exact Logic.I|first [apply vm_client|apply vm_server]|reflexivity]).
  - eapply Go; [exact I|exact Logic.I| |reflexivity]. apply vm_external. intros k. unfold hm_from_list. rewrite from_list_latest. destruct (latest _); reflexivity.
  - eapply Go; [exact I|exact Logic.I|apply vm_annotation; cbn; tauto|reflexivity].
  - destruct Ty as [T1 T2]. destruct mn as [mn|], mx as [mx|].
    4: apply No; [reflexivity|intros []].
    all: eapply Go; [exact I|exact Logic.I| |reflexivity]; (eapply vm_limits; [left; cbn; left; reflexivity|]); apply limits_object; assumption.
  - eapply Go; [exact I|exact Logic.I| |reflexivity]. eapply vm_limits; [right; exists v; cbn; left; reflexivity|]. apply limits_object; [exact Logic.I|exact Ty].
  - eapply Go; [exact I|exact Logic.I| |reflexivity]. eapply vm_limits; [right; exists v; cbn; right; left; reflexivity|]. apply limits_object; [exact Ty|exact Logic.I].
  - eapply Go; [exact I|exact Logic.I|apply vm_annotation; cbn; tauto|reflexivity].
  - eapply Go; [exact I|exact Logic.I| |reflexivity]. apply vm_paginated. intros k. unfold opt_string, ob_string, ob_insert.
    destruct (str_eqb k (lit "inputToken")) eqn:E1.
    { apply str_eqb_eq in E1 as ->. destruct it, ot, it', ps; rewrite ?get_insert; reflexivity. }
    destruct (str_eqb k (lit "outputToken")) eqn:E2.
    { apply str_eqb_eq in E2 as ->. destruct it, ot, it', ps; rewrite ?get_insert; reflexivity. }
    destruct (str_eqb k (lit "items")) eqn:E3.
    { apply str_eqb_eq in E3 as ->. destruct it, ot, it', ps; rewrite ?get_insert; reflexivity. }
    destruct it, ot, it', ps; rewrite ?get_insert, ?E1, ?E2, ?E3; destruct (str_eqb k (lit "pageSize")); reflexivity.
  - destruct p as [|c0 p]; [apply No; [reflexivity|intros X; apply X; reflexivity]|]. eapply Go; [exact I|cbn; discriminate|apply (vm_text _ _ (c0 :: p)); cbn; tauto|reflexivity].
  - eapply Go; [exact I|exact Logic.I|apply vm_annotation; cbn; tauto|reflexivity].
  - destruct Ty as [T1 T2]. destruct mn as [mn|], mx as [mx|].
    4: apply No; [reflexivity|intros []].
    all: eapply Go; [exact I|exact Logic.I| |reflexivity]; (eapply vm_limits; [left; cbn; right; left; reflexivity|]); apply limits_object; assumption.
  - eapply Go; [exact I|exact Logic.I| |reflexivity]. eapply vm_limits; [right; exists v; cbn; do 2 right; left; reflexivity|]. apply limits_object; [exact Logic.I|exact Ty].
  - eapply Go; [exact I|exact Logic.I| |reflexivity]. eapply vm_limits; [right; exists v; cbn; do 3 right; left; reflexivity|]. apply limits_object; [exact Ty|exact Logic.I].
  - eapply Go; [exact I|exact Logic.I|apply vm_annotation; cbn; tauto|reflexivity].
  - destruct v as [l|l|n|b|s|]; try (apply No; [reflexivity|intros [l' X]; discriminate]). eapply Go; [exact I|eexists; reflexivity|apply vm_references|reflexivity].
  - eapply Go; [exact I|exact Logic.I|apply vm_annotation; cbn; tauto|reflexivity].
  - eapply Go; [exact I|exact Logic.I|apply vm_annotation; cbn; tauto|reflexivity].
  - eapply Go; [exact I|exact Logic.I|apply vm_annotation; cbn; tauto|reflexivity].
  - eapply Go; [exact I|exact Logic.I|apply vm_annotation; cbn; tauto|reflexivity].
  - destruct d as [|c0 d]; [apply No; [reflexivity|intros X; apply X; reflexivity]|]. eapply Go; [exact I|cbn; discriminate|apply (vm_text _ _ (c0 :: d)); cbn; tauto|reflexivity].
  - eapply Go; [exact I|exact Logic.I|apply vm_tags|reflexivity].
  - eapply Go; [exact I|exact Logic.I|apply (vm_text _ _ t); cbn; tauto|reflexivity].
  - eapply Go; [exact I|exact Logic.I|apply vm_none; cbn; tauto|reflexivity].
  - eapply Go; [exact I|exact Logic.I|apply vm_annotation; cbn; tauto|reflexivity].
  - eapply Go; [exact I|exact Logic.I|apply vm_none; cbn; tauto|reflexivity].
Qed.
Print Assumptions C44_trait_constructors.

(** So the claim that a limit is written as it is given fails: *)
Definition C44_limits_are_kept : Prop :=
  forall c t, arguments_typed c -> make_trait c = Ok t -> value_meant eq c (tb_value t).
Theorem C44_limits_are_kept_refuted : ~ C44_limits_are_kept.
Proof.
  intros C. specialize (C (TcLengthMax (2 ^ 63)) _ ltac:(vm_compute; split; congruence) eq_refl). cbn [tb_value] in C.
  inversion C as [c I E1 E2|c I E1|c s I E1 E2| | | | | | | |c a b o D G E1 E2]; subst;
    try (cbn [In] in I; repeat (destruct I as [I|I]; [discriminate I|]); destruct I).
  specialize (G (lit "max")). vm_compute in G. destruct G as (n & m & V & N & [[X _]|[_ B]]); [discriminate X|].
  subst b m. injection V as V. destruct D as [D|[v D]]; cbn [In] in D.
  - destruct D as [D|[D|[]]]; congruence.
  - repeat destruct D as [D|D]; try discriminate D; [|destruct D]. injection D as X _ Y. subst. vm_compute in V. discriminate V.
Qed.
Print Assumptions C44_limits_are_kept_refuted.

Example C44_ex :
  arguments_typed (TcLength (Some 3%Z) None) /\ accepted (TcLength (Some 3%Z) None)
  /\ make_trait (TcLength (Some 3%Z) None) = Ok (TB (Qualified (SID "smithy.api" "length" None)) (Some (VObject [(lit "min", VNumber (NInteger 3))])))
  /\ make_trait (TcRange None None) = Panic
  /\ make_trait (TcDeprecated (Some (lit "old")) None)
     = Ok (TB (Qualified (SID "smithy.api" "deprecated" None)) (Some (VObject [(lit "message", VString "old")]))).
Proof. split; [cbn; unfold usize; lia|]. split; [exact I|]. repeat split. Qed.

(** The source of an error can be written and read back, and nothing else can be read. *)
Theorem C44_error_source_round_trip :
  forall (e : error_source) (s : str),
    (error_source_from_str s = Ok e <-> s = error_source_str e) /\ error_source_from_str s <> Panic.
Proof.
  intros e s. unfold error_source_from_str. destruct (str_eqb s (lit "client")) eqn:E1; [|destruct (str_eqb s (lit "server")) eqn:E2].
  - apply str_eqb_eq in E1 as ->. destruct e; split; try discriminate; split; try discriminate; reflexivity.
  - apply str_eqb_eq in E2 as ->. destruct e; split; try discriminate; split; try discriminate; reflexivity.
  - apply str_eqb_neq in E1, E2. split; [|discriminate]. split; [discriminate|]. destruct e; contradiction.
Qed.
Print Assumptions C44_error_source_round_trip.
