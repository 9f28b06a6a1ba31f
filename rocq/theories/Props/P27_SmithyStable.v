(** C61: trips through the Smithy IDL are stable, do not depend on the order of hash maps, and agree with trips
    through JSON. *)
From Coq Require Import Permutation.
From Verif.Model Require Import SmithyParse SmithyWrite.
From Verif.Model Require Json.
From Verif.Spec Require Import IdentitySpec ModelSpec ReorderSpec SmithySpec Witness.
From Verif.Spec Require JsonSpec.
From Verif.Proofs Require Import BaseFacts HashMapFacts ReorderFacts ReorderEquiv SmithyStableFacts.
From Verif.Proofs Require JsonCanonFacts.
From Verif.Props Require P05_Json P12_Smithy P26_JsonStable.

Section Stable.
  (** [Display for f64], [Debug for str] and [FromStr for f64]; the hash function. *)
  Variables (f64_str : Z -> str) (debug_str : str -> str) (f64_parse : str -> Z).
  Context `{Hasher}.
  Local Notation writable := (model_writable f64_str debug_str f64_parse).
  Local Notation write := (write_smithy f64_str debug_str).
  Local Notation parse := (parse_model f64_parse).

  Lemma back_reordered v md md' (a b : list (shape_id * shape)) sa sb :
    Permutation a sa -> Permutation b sb -> reordered reorder_shape sa sb -> reordered reorder_value md md' ->
    reorder_model (Model v md a) (Model v md' b).
  Proof.
    intros Pa Pb R M. split; [reflexivity|]. split; [exact M|]. cbn [m_shapes].
    destruct R as (c & Pc & F). destruct (perm_forall2 _ _ _ _ (Permutation_sym Pc) F) as (d & Pd & F').
    destruct (perm_forall2 _ _ _ _ Pc F') as (b' & Pb' & F1).
    destruct (perm_forall2 (fun y x => fst x = fst y /\ reorder_shape (snd x) (snd y)) sb b c) as (c' & Pc' & F2); [symmetry; exact Pb|apply Forall2_flip in F; exact F|].
    exists c'. split; [|apply Forall2_flip in F2; exact F2]. rewrite Pa, Pc. exact Pc'.
  Qed.
  Lemma metadata_back_reordered a b : reordered reorder_value a b -> reordered reorder_value (map metadata_back a) (map metadata_back b).
  Proof.
    intros (a' & P & F). exists (map metadata_back a'). split; [apply Permutation_map, P|]. clear P.
    induction F as [|x y a' b [E R] F IH]; cbn [map]; constructor; [|exact IH]. unfold metadata_back. cbn [fst snd]. rewrite E. auto.
  Qed.
  Lemma alike_trips ns m1 m2 : writable ns m1 -> m_version m1 = m_version m2 -> reordered reorder_value (m_metadata m1) (m_metadata m2) ->
    reordered (alike f64_str debug_str f64_parse ns) (m_shapes m1) (m_shapes m2) ->
    Forall (fun s => ts_body s = KUnresolved -> same_name (sid_ns (ts_id s)) ns -> ts_traits s = []) (map snd (m_shapes m2)) ->
    writable ns m2 /\ exists r1 r2, parse (write ns m1) = Ok r1 /\ parse (write ns m2) = Ok r2 /\ reorder_model r1 r2.
  Proof.
    intros W V MD RS UN. pose proof (shapes_alike _ _ _ _ m1 m2 RS) as WA.
    pose proof (alike_writable _ _ _ _ m1 m2 WA W MD UN) as W2. split; [exact W2|].
    destruct (P12_Smithy.C40_round_trip _ _ _ _ m1 W) as ([v1 d1 s1] & P1 & V1 & M1 & S1).
    destruct (P12_Smithy.C40_round_trip _ _ _ _ m2 W2) as ([v2 d2 s2] & P2 & V2 & M2 & S2).
    exists (Model v1 d1 s1), (Model v2 d2 s2). split; [exact P1|]. split; [exact P2|]. cbn [m_version m_metadata m_shapes] in *. subst v1 v2 d1 d2. rewrite V.
    eapply back_reordered; [exact S1|exact S2|exact (alike_back_shapes _ _ _ _ m1 m2 WA)|apply metadata_back_reordered, MD].
  Qed.

  (** The order in which the hash maps of the model are iterated shows in the text, but not in what is read. *)
  Theorem C61_order_independent :
    forall ns m1 m2, writable ns m1 -> reorder_model m1 m2 ->
      exists r1 r2, parse (write ns m1) = Ok r1 /\ parse (write ns m2) = Ok r2 /\ reorder_model r1 r2.
  Proof.
    intros ns m1 m2 W (V & MD & RS).
    assert (RA : reordered (alike f64_str debug_str f64_parse ns) (m_shapes m1) (m_shapes m2)).
    { destruct RS as (a & P & F). exists a. split; [exact P|]. eapply Forall2_impl; [|exact F]. intros x y [E R]. split; [exact E|apply alike_reorder, R]. }
    refine (proj2 (alike_trips ns m1 m2 W V MD RA _)).
    apply Forall_map. eapply reordered_forall; [exact RS|]. intros k x y I (E & T & B) U N. cbn [snd] in *.
    destruct W as (_ & _ & _ & _ & _ & _ & _ & UN). rewrite Forall_forall in UN. rewrite <- E in N.
    apply (reorder_nil _ _ _ T). apply UN; [apply (in_map snd) in I; exact I| |exact N]. rewrite U in B. inversion B; reflexivity.
  Qed.

  (** What was read is read again from what is written of it: the second trip loses nothing more (metadata aside,
      see below). *)
  Theorem C61_stable :
    forall ns m m1, writable ns m -> m_metadata m = [] -> parse (write ns m) = Ok m1 ->
      exists m2, parse (write ns m1) = Ok m2
        /\ m_version m2 = m_version m1 /\ m_metadata m2 = [] /\ Permutation (m_shapes m2) (m_shapes m1).
  Proof.
    intros ns m m1 W MD P. destruct (P12_Smithy.C40_round_trip _ _ _ _ m W) as (m1' & P' & V & M & S). rewrite P in P'. injection P' as <-.
    rewrite MD in M. cbn in M.
    assert (WW : Permutation (written ns m1) (map shape_back (written ns m))).
    { unfold written at 1. rewrite (filter_perm _ _ _ (Permutation_map snd S)). rewrite map_map. cbn [snd].
      assert (A : Forall (fun s => is_import (shape_back s) || is_own ns (shape_back s) = true) (written ns m)).
      { apply Forall_forall. intros s I. destruct (alike_back f64_str debug_str f64_parse ns s) as (_ & <- & <- & _). apply filter_In in I. apply I. }
      apply eq_ind with (x := map shape_back (written ns m)) (P := fun l => Permutation l _); [reflexivity|].
      symmetry. clear S. induction A as [|s l E A IH]; [reflexivity|]. cbn [map filter]. rewrite E, IH. reflexivity. }
    assert (WA : written_alike f64_str debug_str f64_parse ns m m1).
    { destruct (perm_forall2 (fun y x => alike f64_str debug_str f64_parse ns x y) (map shape_back (written ns m)) (written ns m1) (written ns m)) as (w & Pw & F).
      - symmetry. exact WW.
      - clear. induction (written ns m); constructor; [apply alike_back|assumption].
      - exists w. split; [exact Pw|]. apply Forall2_flip in F. exact F. }
    assert (W1 : writable ns m1).
    { refine (alike_writable _ _ _ _ m m1 WA W _ _).
      - rewrite MD, M. apply reordered_refl, rv_same.
      - apply Forall_forall. intros s I U _. apply in_map_iff in I as ([k s'] & <- & I). cbn [snd] in *.
        apply (Permutation_in _ S) in I. apply in_map_iff in I as (s0 & E & I). injection E as <- <-. apply filter_In in I as [_ I].
        destruct (alike_back f64_str debug_str f64_parse ns s0) as (_ & E1 & E2 & _). rewrite E1, E2 in I. unfold is_import, is_own in I. rewrite U in I.
        destruct (ts_traits (shape_back s0)); [reflexivity|discriminate I]. }
    destruct (P12_Smithy.C40_round_trip _ _ _ _ m1 W1) as (m2 & P2 & V2 & M2 & S2). exists m2. split; [exact P2|]. split; [exact V2|].
    split; [rewrite M2, M; reflexivity|]. rewrite S2, S, (Permutation_map (fun s => (ts_id s, shape_back s)) WW), map_map.
    apply eq_ind with (x := map (fun s => (ts_id s, shape_back s)) (written ns m)) (P := fun l => Permutation l _); [reflexivity|].
    symmetry. apply map_ext. intros s. rewrite shape_back_back. reflexivity.
  Qed.

  (** A detour through JSON changes nothing of what is read from the IDL. *)
  Theorem C61_via_json :
    forall ns m j m', writable ns m -> JsonSpec.model_writable m -> Json.model_to_json m = Ok j -> Json.read_model j = Ok m' ->
      exists r r', parse (write ns m) = Ok r /\ parse (write ns m') = Ok r' /\ reorder_model r r'.
  Proof.
    intros ns m j m' W JW E R. destruct (P05_Json.C26_json_image _ m JW) as (j' & m'' & E' & R' & O & _).
    assert (j' = j) by congruence. subst j'. assert (m'' = m') by congruence. subst m''. clear E' R'.
    assert (RA : reordered (alike f64_str debug_str f64_parse ns) (m_shapes m) (m_shapes (JsonSpec.json_image m))).
    { exists (m_shapes m). split; [reflexivity|]. cbn [JsonSpec.json_image m_shapes]. clear. induction (m_shapes m); constructor; [|assumption]. split; [reflexivity|apply alike_json]. }
    destruct (alike_trips ns m (JsonSpec.json_image m) W eq_refl) as (W1 & r1 & r2 & P1 & P2 & Q); [apply reordered_refl, rv_same|exact RA| |].
    { cbn [JsonSpec.json_image m_shapes]. rewrite map_map. cbn [snd]. destruct W as (_ & _ & _ & _ & _ & _ & _ & UN). rewrite Forall_map in UN |- *.
      eapply Forall_impl; [|exact UN]. intros [k s] X U N. cbn [snd JsonSpec.json_shape ts_body ts_traits ts_id] in *.
      rewrite (X (ltac:(destruct (ts_body s); (discriminate U || reflexivity))) N). reflexivity. }
    destruct (C61_order_independent ns _ m' W1 O) as (r2' & r3 & P2' & P3 & Q'). assert (r2' = r2) by congruence. subst r2'.
    exists r1, r3. split; [exact P1|]. split; [exact P3|]. exact (reorder_model_trans _ _ _ Q Q').
  Qed.

  (** A model that only holds what the IDL keeps has the same JSON document after a trip through the IDL. *)
  Theorem C61_then_json :
    forall ns m, writable ns m -> all_kept ns m -> JsonSpec.model_writable m ->
      exists m' j, parse (write ns m) = Ok m' /\ Json.model_to_json m = Ok j /\ Json.model_to_json m' = Ok j.
  Proof.
    intros ns m W K JW. destruct (P12_Smithy.C40_identity _ _ _ ns m W K) as (m' & P & V & MD & S).
    destruct (P26_JsonStable.C60_order_independent _ m m' JW) as (j & E1 & E2).
    - split; [symmetry; exact V|]. split; [rewrite MD; apply reordered_refl, rv_same|]. exists (m_shapes m'). split; [symmetry; exact S|].
      clear. induction (m_shapes m'); constructor; [|assumption]. split; [reflexivity|apply reorder_shape_refl].
    - exists m', j. auto.
  Qed.
End Stable.
Print Assumptions C61_order_independent.
Print Assumptions C61_stable.
Print Assumptions C61_via_json.
Print Assumptions C61_then_json.

(** With metadata the second trip fails: the keys were read with their quotes, and quotes are written around them. *)
Definition stable_with_metadata : Prop :=
  forall (f64_str : Z -> str) (debug_str : str -> str) (f64_parse : str -> Z) (h : Hasher) (ns : str) (m m1 : model),
    model_writable f64_str debug_str f64_parse ns m -> parse_model f64_parse (write_smithy f64_str debug_str ns m) = Ok m1 ->
      exists m2, parse_model f64_parse (write_smithy f64_str debug_str ns m1) = Ok m2.
Theorem C61_metadata_refuted : ~ stable_with_metadata.
Proof.
  intros C. specialize (C P12_Smithy.no_float quoted P12_Smithy.zero_parse zero_hasher ex_ns (P12_Smithy.md_model (VBoolean true)) (Model V10 [(quoted "k", VBoolean true)] [])).
  destruct C as (m2 & E).
  - split; [exists [lit "example"; lit "motd"]; split; [discriminate|split; [repeat (apply Forall_cons; [P12_Smithy.solve_short|]); apply Forall_nil|reflexivity]]|].
    split; [cbn [P12_Smithy.md_model m_metadata]; solve_distinct|].
    split; [cbn [P12_Smithy.md_model m_metadata]; repeat (apply Forall_cons; [split; [cbn [fst]; P12_Smithy.solve_plain|split; [cbn [snd]; P12_Smithy.solve_value|intros ?; discriminate]]|]); apply Forall_nil|].
    repeat split; try constructor.
  - vm_compute. reflexivity.
  - vm_compute in E. discriminate E.
Qed.
Print Assumptions C61_metadata_refuted.

(** ** Examples *)
Definition idl_backwards : model := Model V10 (rev (m_metadata P12_Smithy.idl_model)) (rev (m_shapes P12_Smithy.idl_model)).
Definition idl_bare : model := Model V10 [] (m_shapes P12_Smithy.idl_model).
Lemma reorder_rev m : reorder_model m (Model (m_version m) (rev (m_metadata m)) (rev (m_shapes m))).
Proof.
  split; [reflexivity|]. split; [exists (rev (m_metadata m))|exists (rev (m_shapes m))]; (split; [apply Permutation_rev|]); cbn [m_metadata m_shapes].
  - induction (rev (m_metadata m)); constructor; [split; [reflexivity|apply rv_same]|assumption].
  - induction (rev (m_shapes m)); constructor; [split; [reflexivity|apply reorder_shape_refl]|assumption].
Qed.
Lemma drop_metadata f d p (h : Hasher) ns m : model_writable f d p ns m -> model_writable f d p ns (Model (m_version m) [] (m_shapes m)).
Proof.
  intros (A & _ & _ & B & C & D & E & F). split; [exact A|]. split; [exact I|]. split; [constructor|]. split; [exact B|]. split; [exact C|]. split; [exact D|].
  split; [|exact F]. eapply Forall_impl; [|exact E]. intros s X O. eapply own_ext; [| |exact (X O)]; intros id; reflexivity.
Qed.
Example C61_ex :
  @model_writable P12_Smithy.no_float quoted P12_Smithy.zero_parse zero_hasher ex_ns P12_Smithy.idl_model
  /\ reorder_model P12_Smithy.idl_model idl_backwards /\ P12_Smithy.idl_model <> idl_backwards
  /\ write_smithy P12_Smithy.no_float quoted ex_ns P12_Smithy.idl_model <> write_smithy P12_Smithy.no_float quoted ex_ns idl_backwards
  /\ @model_writable P12_Smithy.no_float quoted P12_Smithy.zero_parse zero_hasher ex_ns idl_bare
  /\ @JsonSpec.model_writable zero_hasher P12_Smithy.idl_model
  /\ @model_writable P12_Smithy.no_float quoted P12_Smithy.zero_parse zero_hasher ex_ns P12_Smithy.kept_model
  /\ all_kept ex_ns P12_Smithy.kept_model /\ @JsonSpec.model_writable zero_hasher P12_Smithy.kept_model.
Proof.
  split; [exact P12_Smithy.C40_ex_writable|]. split; [exact (reorder_rev P12_Smithy.idl_model)|]. split; [vm_compute; discriminate|].
  split; [vm_compute; discriminate|].
  split; [exact (drop_metadata _ _ _ _ _ _ P12_Smithy.C40_ex_writable)|]. split; [|split; [apply P12_Smithy.C40_ex_kept|split; [apply P12_Smithy.C40_ex_kept|]]].
  - split; [unfold P12_Smithy.idl_model; solve_model_ok P12_Smithy.idl_model|]. split; cbn; autounfold with witness; P05_Json.solve_writable.
  - split; [unfold P12_Smithy.kept_model; solve_model_ok P12_Smithy.kept_model|]. split; cbn; autounfold with witness; P05_Json.solve_writable.
Qed.
