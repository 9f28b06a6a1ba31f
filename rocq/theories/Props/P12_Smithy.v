(** C39, C40: the Smithy IDL (atelier-smithy/src/{parser/smithy,writer}.rs and smithy.pest). *)
From Coq Require Import Permutation.
From Verif.Model Require Import Peg SmithyGrammar SmithyParse SmithyWrite.
From Verif.Spec Require Import IdentitySpec ModelSpec SmithySpec LayoutSpec Witness.
From Verif.Proofs Require Import BaseFacts SmithyGrammarFacts.
From Verif.Proofs Require SmithyShapeFacts SmithyBuildFacts BuilderFacts PegFacts LayoutParse.

(* ---------------------------------------------------------------- C40 *)
Section RoundTrip.
  (** [Display for f64], [Debug for str] and [FromStr for f64]; the hash function. *)
  Variables (f64_str : Z -> str) (debug_str : str -> str) (f64_parse : str -> Z).
  Context `{Hasher}.

  (** A writable model is read back: the same version, the metadata with quotes around their keys, and of the
      shapes exactly the imports and those of the namespace, each as [shape_back] describes it. *)
  Theorem C40_round_trip :
    forall ns m, model_writable f64_str debug_str f64_parse ns m ->
      exists m', parse_model f64_parse (write_smithy f64_str debug_str ns m) = Ok m'
                 /\ m_version m' = m_version m
                 /\ m_metadata m' = map metadata_back (m_metadata m)
                 /\ Permutation (m_shapes m') (map (fun s => (ts_id s, shape_back s)) (written ns m)).
  Proof. intros ns m MW. exact (SmithyBuildFacts.round_trip f64_str debug_str f64_parse ns m MW). Qed.

  (** The same text: writing does not depend on anything but the model, and a model that only holds what the
      IDL keeps comes back as it was, but for the order of the hash map. *)
  Lemma traits_kept_back ts : traits_kept ts -> map trait_back ts = ts.
  Proof.
    unfold traits_kept. induction 1 as [|[i v] ts N F IH]; [reflexivity|]. cbn [map]. rewrite IH. unfold trait_back. cbn [fst snd] in *.
    destruct v; [reflexivity|congruence].
  Qed.
  Lemma member_kept_back n x : member_kept n x -> plain_member n x = x.
  Proof. intros [E T]. destruct x as [i ts t]. cbn in *. subst. reflexivity. Qed.
  Lemma members_kept_back (ms : members) : Forall (fun e => fst e = ms_id (snd e) /\ traits_kept (ms_traits (snd e))) ms ->
    map (fun e => (ms_id (snd e), member_back (snd e))) ms = ms.
  Proof.
    induction 1 as [|[k x] ms [E T] F IH]; [reflexivity|]. cbn [map]. rewrite IH. cbn [fst snd] in *. subst k. unfold member_back.
    rewrite (traits_kept_back _ T). destruct x; reflexivity.
  Qed.
  Lemma shape_kept_back s : traits_kept (ts_traits s) -> body_kept (ts_body s) -> shape_back s = s.
  Proof.
    intros T B. unfold shape_back. rewrite (traits_kept_back _ T). destruct s as [i ts k]. cbn [ts_id ts_traits ts_body] in *. f_equal.
    destruct k; cbn [body_back body_kept] in *; try reflexivity; try contradiction.
    - rewrite (member_kept_back _ _ B). reflexivity.
    - destruct B as [B1 B2]. rewrite (member_kept_back _ _ B1), (member_kept_back _ _ B2). reflexivity.
    - rewrite (members_kept_back _ B). reflexivity.
    - rewrite (members_kept_back _ B). reflexivity.
    - destruct s; cbn in *. subst. reflexivity.
  Qed.
  Theorem C40_identity :
    forall ns m, model_writable f64_str debug_str f64_parse ns m -> all_kept ns m ->
      exists m', parse_model f64_parse (write_smithy f64_str debug_str ns m) = Ok m'
                 /\ m_version m' = m_version m /\ m_metadata m' = m_metadata m /\ Permutation (m_shapes m') (m_shapes m).
  Proof.
    intros ns m MW [EM F]. destruct (C40_round_trip ns m MW) as (m' & P & V & MD & S). exists m'. split; [exact P|]. split; [exact V|].
    split; [rewrite MD, EM; reflexivity|]. rewrite S. apply eq_ind_r with (P := fun l => Permutation l (m_shapes m)) (x := m_shapes m); [reflexivity|].
    unfold written. revert F. generalize (m_shapes m) as l. induction l as [|[k s] l IH]; intros F; [reflexivity|].
    inversion F as [|e l' (E & W & T & B) F']; subst. cbn [fst snd map filter] in *. subst k.
    replace (is_import s || is_own ns s) with true by (destruct W as [-> | ->]; [reflexivity|symmetry; apply Bool.orb_true_r]).
    cbn [map]. rewrite (IH F'), (shape_kept_back _ T B). reflexivity.
  Qed.
End RoundTrip.
Print Assumptions C40_round_trip.
Print Assumptions C40_identity.

(** ** A model that can be written *)
Definition no_float : Z -> str := fun _ => lit "0.0".
Definition zero_parse : str -> Z := fun _ => 0%Z.

Definition other_thing : shape_id := SID "example.other" "Thing" None.
Definition idl_model : model :=
  Model V10 [(lit "domain", VString "motd"); (lit "build", VArray [VNumber (NInteger 7); VBoolean true])]
    (map (fun s => (ts_id s, s))
       [Shape other_thing [] KUnresolved;
        motd_date;
        Shape (ex_id "GetMessageInput") []
          (KStructure [(lit "date", MS "date" [(api_id "required", None); (SID "example.traits" "mark" None, Some (VObject [(lit "level", VNumber (NInteger (-3)))]))] (ex_id "Date"));
                       (lit "thing", MS "thing" [] other_thing)]);
        motd_output; motd_error; motd_op; motd_resource; motd_service;
        Shape (ex_id "Things") [] (KSet (MS "member" [(api_id "required", None)] other_thing));
        Shape (ex_id "Index") [] (KMap (MS "key" [] (api_id "String")) (MS "value" [] (ex_id "Things")))]).

Ltac solve_short :=
  lazymatch goal with |- short_identifier ?s => let v := eval vm_compute in s in change (short_identifier v) end; apply SmithyShapeFacts.short_lit; vm_compute; reflexivity.
Definition plain_ascii (c : ascii) : bool :=
  let n := N_of_ascii c in (32 <=? n)%N && (n <? 128)%N && negb (n =? 34)%N && negb (n =? 92)%N.
Lemma plain_ascii_text s : forallb plain_ascii s = true -> plain_text s.
Proof.
  induction s as [|c s IH]; [constructor|]. cbn [forallb]. intros E. apply andb_true_iff in E as [C E].
  assert (X : decode1 (c :: s) = Some (N_of_ascii c, s)) by (destruct c as [[] [] [] [] [] [] [] []]; (discriminate C || reflexivity)).
  apply (plain_cons _ _ _ X); [..|exact (IH E)]; unfold plain_ascii in C; cbv zeta in C; rewrite !andb_true_iff, !negb_true_iff, N.leb_le, N.ltb_lt, !N.eqb_neq in C; lia.
Qed.
Ltac solve_plain := apply plain_ascii_text; vm_compute; reflexivity.
Ltac in_written I :=
  lazymatch type of I with In ?s ?l => let v := eval vm_compute in l in change (In s v) in I end;
  repeat (destruct I as [<-|I]); [..|destruct I].
Ltac solve_not_named :=
  let i := fresh "i" in let s := fresh "s" in let I := fresh "I" in let E := fresh "E" in let X := fresh "X" in
  intros i (s & I & E & <-) X; in_written I; vm_compute in E; try discriminate E; vm_compute in X; discriminate X.
Lemma owns_list ns m id : In id (map ts_id (filter (is_own ns) (written ns m))) -> owns ns m id.
Proof. intros I. apply in_map_iff in I as (s & <- & I). apply filter_In in I as [I E]. exists s. auto. Qed.
Lemma imports_list ns m id : In id (map ts_id (filter is_import (written ns m))) -> imports ns m id.
Proof. intros I. apply in_map_iff in I as (s & <- & I). apply filter_In in I as [I E]. exists s. auto. Qed.
Ltac solve_is_written := first [apply owns_list|apply imports_list]; vm_compute; solve [repeat (first [left; reflexivity|right])].
Ltac solve_found :=
  first
    [ apply found_own; [solve_is_written|solve_not_named]
    | apply found_import; [solve_is_written|
        let i := fresh "i" in let s := fresh "s" in let I := fresh "I" in let E := fresh "E" in let X := fresh "X" in
        intros i (s & I & E & <-) X; in_written I; vm_compute in E; try discriminate E; vm_compute in X; first [discriminate X|reflexivity]]
    | apply (found_prelude _ _ _ (lit _)); [|solve_not_named|solve_not_named] ].
Ltac solve_prelude := apply BuilderFacts.prelude_spec; vm_compute; reflexivity.
Ltac solve_name :=
  lazymatch goal with
  | |- SmithySpec.local _ _ _ => split; [solve_short|solve_found; try solve_prelude]
  | |- local_value _ _ _ => split; [split; [solve_short|solve_found; try solve_prelude]|intros ?; repeat split; vm_compute; discriminate]
  end.
Ltac solve_absolute :=
  split; [|split; [solve_short|reflexivity]];
  lazymatch goal with |- dotted_name ?n => let l := eval vm_compute in (split_on "."%char n) in exists l end;
  split; [discriminate|split; [repeat (apply Forall_cons; [solve_short|]); apply Forall_nil|vm_compute; reflexivity]].
Ltac solve_value :=
  repeat first
    [ apply vw_array; repeat apply Forall_cons; try apply Forall_nil
    | apply vw_object; [solve_distinct|repeat apply Forall_cons; try apply Forall_nil; (split; [solve_short|]); cbn [snd fst]]
    | apply vw_int; lia | apply vw_bool | apply vw_string; split; [solve_plain|reflexivity] ].
Ltac solve_trait :=
  split; [|cbn [snd]; first [exact I|solve_value]]; cbn [fst];
  first [left; split; [first [left; reflexivity|right; reflexivity]|split; [solve_short|solve_found; try solve_prelude]]
        |right; split; [intros [X|X]; vm_compute in X; discriminate X|solve_absolute]].
Ltac solve_traits := split; [solve_distinct|repeat (apply Forall_cons; [solve_trait|]); apply Forall_nil].

Example C40_ex_writable : @model_writable no_float quoted zero_parse zero_hasher ex_ns idl_model.
Proof.
  unfold model_writable. split; [exists [lit "example"; lit "motd"]; split; [discriminate|split; [repeat (apply Forall_cons; [solve_short|]); apply Forall_nil|reflexivity]]|].
  split; [cbn [idl_model m_metadata]; solve_distinct|].
  split; [cbn [idl_model m_metadata]; repeat (apply Forall_cons; [split; [cbn [fst]; solve_plain|split; [cbn [snd]; solve_value|intros ?; discriminate]]|]); apply Forall_nil|].
  assert (W : written ex_ns idl_model = map snd (m_shapes idl_model)) by (vm_compute; reflexivity). rewrite W.
  split; [cbn [idl_model m_shapes map snd]; solve_distinct|].
  split; [vm_compute; repeat (apply NoDup_cons; [intros X; cbn [In] in X; repeat destruct X as [X|X]; (discriminate X || contradiction)|]); apply NoDup_nil|].
  split; [cbn [idl_model m_shapes map snd]; repeat (apply Forall_cons; [intros E; first [discriminate E|solve_absolute]|]); apply Forall_nil|].
  split; [|cbn [idl_model m_shapes map snd]; repeat (apply Forall_cons; [intros E X; first [discriminate E|reflexivity]|]); apply Forall_nil].
  cbn [idl_model m_shapes map snd]. repeat (apply Forall_cons; [|]); try apply Forall_nil; intros E; try discriminate E; clear E;
    (split; [eexists; split; [reflexivity|split; [solve_short|solve_not_named]]|]);
    (split; [autounfold with witness; cbn [ts_traits]; solve_traits|]); autounfold with witness; cbn [ts_body body_writable].
  - exact I.
  - split; [cbn [map snd]; solve_distinct|]. repeat (apply Forall_cons; [split; [solve_short|split; [cbn [snd ms_traits]; solve_traits|cbn [snd ms_target]; solve_name]]|]); apply Forall_nil.
  - split; [cbn [map snd]; solve_distinct|]. repeat (apply Forall_cons; [split; [solve_short|split; [cbn [snd ms_traits]; solve_traits|cbn [snd ms_target]; solve_name]]|]); apply Forall_nil.
  - split; [cbn [map snd]; solve_distinct|]. repeat (apply Forall_cons; [split; [solve_short|split; [cbn [snd ms_traits]; solve_traits|cbn [snd ms_target]; solve_name]]|]); apply Forall_nil.
  - cbn [op_input op_output op_errors opt_local_value]. split; [solve_name|]. split; [solve_name|]. repeat (apply Forall_cons; [solve_name|]); apply Forall_nil.
  - cbn [rs_identifiers rs_create rs_put rs_read rs_update rs_delete rs_list rs_operations rs_collection_operations rs_resources app].
    split; [solve_distinct|]. split; [repeat (apply Forall_cons; [split; [solve_short|cbn [snd]; solve_name]|]); apply Forall_nil|].
    split; [|apply Forall_nil]. repeat (apply Forall_cons; [cbn [opt_local_value]; first [exact I|solve_name]|]); apply Forall_nil.
  - cbn [sv_version sv_operations sv_resources]. split; [discriminate|]. split; [split; [solve_plain|reflexivity]|].
    split; repeat (apply Forall_cons; [solve_name|]); apply Forall_nil.
  - solve_absolute.
  - cbn [ms_target]. split; solve_name.
Qed.
(** What comes back of it: the set as a list without member traits, and a value for [required]. *)
Example C40_ex_back :
  exists m', @parse_model zero_parse zero_hasher (write_smithy no_float quoted ex_ns idl_model) = Ok m'
    /\ In (ex_id "Things", Shape (ex_id "Things") [] (KList (MS "member" [] other_thing))) (m_shapes m')
    /\ In (quoted "domain", VString "motd") (m_metadata m').
Proof.
  destruct (@C40_round_trip no_float quoted zero_parse zero_hasher ex_ns idl_model C40_ex_writable) as (m' & P & _ & M & S).
  exists m'. split; [exact P|]. split; [|rewrite M; left; reflexivity]. apply (Permutation_in _ (Permutation_sym S)).
  vm_compute. do 8 right. left. reflexivity.
Qed.
(** A model that loses nothing. *)
Definition kept_model : model :=
  Model V10 [] (map (fun s => (ts_id s, s))
    [motd_date; Shape (ex_id "Dates") [(api_id "documentation", Some (VString "All of them"))] (KList (MS "member" [] (ex_id "Date")));
     Shape (ex_id "Pair") [] (KUnion [(lit "left", MS "left" [(api_id "title", Some (VString "Left"))] (api_id "Integer")); (lit "right", MS "right" [] (ex_id "Dates"))])]).
Example C40_ex_kept : @model_writable no_float quoted zero_parse zero_hasher ex_ns kept_model /\ all_kept ex_ns kept_model.
Proof.
  split.
  - unfold model_writable. split; [exists [lit "example"; lit "motd"]; split; [discriminate|split; [repeat (apply Forall_cons; [solve_short|]); apply Forall_nil|reflexivity]]|].
    split; [exact I|]. split; [apply Forall_nil|].
    assert (W : written ex_ns kept_model = map snd (m_shapes kept_model)) by (vm_compute; reflexivity). rewrite W.
    split; [cbn [kept_model m_shapes map snd]; solve_distinct|].
    split; [vm_compute; repeat (apply NoDup_cons; [intros X; cbn [In] in X; repeat destruct X as [X|X]; (discriminate X || contradiction)|]); apply NoDup_nil|].
    split; [cbn [kept_model m_shapes map snd]; repeat (apply Forall_cons; [intros E; first [discriminate E|solve_absolute]|]); apply Forall_nil|].
    split; [|cbn [kept_model m_shapes map snd]; repeat (apply Forall_cons; [intros E X; first [discriminate E|reflexivity]|]); apply Forall_nil].
    cbn [kept_model m_shapes map snd]. repeat (apply Forall_cons; [|]); try apply Forall_nil; intros E; clear E;
      (split; [eexists; split; [reflexivity|split; [solve_short|solve_not_named]]|]);
      (split; [autounfold with witness; cbn [ts_traits]; solve_traits|]); autounfold with witness; cbn [ts_body body_writable].
    + exact I.
    + solve_absolute.
    + split; [cbn [map snd]; solve_distinct|]. repeat (apply Forall_cons; [split; [solve_short|split; [cbn [snd ms_traits]; solve_traits|cbn [snd ms_target]; solve_name]]|]); apply Forall_nil.
  - split; [reflexivity|]. cbn [kept_model m_shapes map]. repeat (apply Forall_cons; [split; [reflexivity|split; [right; reflexivity|split]]|]); try apply Forall_nil;
      autounfold with witness; cbn [snd ts_body ts_traits body_kept]; unfold traits_kept, member_kept; repeat first [exact I|split|apply Forall_cons|apply Forall_nil|reflexivity|discriminate].
Qed.

(** ** The unrestricted claim, and what breaks it *)
Definition idl_round_trip : Prop :=
  forall (f64_str : Z -> str) (debug_str : str -> str) (f64_parse : str -> Z) (h : Hasher) (ns : str) (m : model), @model_ok h m ->
    exists m', @parse_model f64_parse h (write_smithy f64_str debug_str ns m) = Ok m' /\ @model_eqb h m m' = true.
Definition reread (m : model) : result model := @parse_model zero_parse zero_hasher (write_smithy no_float quoted ex_ns m).
Definition one_shape (s : shape) : model := Model V10 [] [(ts_id s, s)].
(** Each of these models can be written, and something is lost or the text cannot be read. *)
Definition md_model (v : value) : model := Model V10 [(lit "k", v)] [].
(** Metadata keys come back with quotes. *)
Theorem C40_metadata_key_refuted : ~ idl_round_trip.
Proof.
  intros R. destruct (R no_float quoted zero_parse zero_hasher ex_ns (md_model (VBoolean true))) as (m' & P & E); [solve_model_ok md_model|].
  vm_compute in P. injection P as <-. vm_compute in E. discriminate E.
Qed.
Print Assumptions C40_metadata_key_refuted.
(** Traits without a value get the empty object. *)
Definition flagged : model := one_shape (Shape (ex_id "A") [(api_id "sensitive", None)] (KSimple SString)).
Theorem C40_trait_refuted : ~ idl_round_trip.
Proof.
  intros R. destruct (R no_float quoted zero_parse zero_hasher ex_ns flagged) as (m' & P & E); [unfold flagged, one_shape; solve_model_ok flagged|].
  vm_compute in P. injection P as <-. vm_compute in E. discriminate E.
Qed.
Print Assumptions C40_trait_refuted.
(** Sets become lists. *)
Definition a_set : model := one_shape (Shape (ex_id "A") [] (KSet (MS "member" [] (api_id "String")))).
Theorem C40_set_refuted : ~ idl_round_trip.
Proof.
  intros R. destruct (R no_float quoted zero_parse zero_hasher ex_ns a_set) as (m' & P & E); [unfold a_set, one_shape; solve_model_ok a_set|].
  vm_compute in P. injection P as <-. vm_compute in E. discriminate E.
Qed.
Print Assumptions C40_set_refuted.
(** A list loses the traits of its member. *)
Definition marked_list : model :=
  one_shape (Shape (ex_id "A") [] (KList (MS "member" [(api_id "title", Some (VString "x"))] (api_id "String")))).
Theorem C40_member_traits_refuted : ~ idl_round_trip.
Proof.
  intros R. destruct (R no_float quoted zero_parse zero_hasher ex_ns marked_list) as (m' & P & E); [unfold marked_list, one_shape; solve_model_ok marked_list|].
  vm_compute in P. injection P as <-. vm_compute in E. discriminate E.
Qed.
Print Assumptions C40_member_traits_refuted.
(** Shapes of other namespaces are not written. *)
Definition foreign : model := one_shape (Shape other_thing [] (KSimple SString)).
Theorem C40_namespace_refuted : ~ idl_round_trip.
Proof.
  intros R. destruct (R no_float quoted zero_parse zero_hasher ex_ns foreign) as (m' & P & E); [unfold foreign, one_shape; solve_model_ok foreign|].
  vm_compute in P. injection P as <-. vm_compute in E. discriminate E.
Qed.
Print Assumptions C40_namespace_refuted.
(** Targets of members are written without their namespace, and mean something else. *)
Definition foreign_target : model :=
  one_shape (Shape (ex_id "A") [] (KStructure [(lit "x", MS "x" [] other_thing)])).
Theorem C40_target_refuted : ~ idl_round_trip.
Proof.
  intros R. destruct (R no_float quoted zero_parse zero_hasher ex_ns foreign_target) as (m' & P & E); [unfold foreign_target, one_shape; solve_model_ok foreign_target|].
  vm_compute in P. injection P as <-. vm_compute in E. discriminate E.
Qed.
Print Assumptions C40_target_refuted.
(** Renames of services are not written. *)
Definition renaming : model :=
  one_shape (Shape (ex_id "A") [] (KService (Service "1" [] [] [(ex_id "B", lit "C")]))).
Theorem C40_renames_refuted : ~ idl_round_trip.
Proof.
  intros R. destruct (R no_float quoted zero_parse zero_hasher ex_ns renaming) as (m' & P & E); [unfold renaming, one_shape; solve_model_ok renaming|].
  vm_compute in P. injection P as <-. vm_compute in E. discriminate E.
Qed.
Print Assumptions C40_renames_refuted.
(** The writer's own text is not always accepted: traits applied to other shapes, objects in metadata. *)
Definition written_is_read : Prop :=
  forall (f64_str : Z -> str) (debug_str : str -> str) (f64_parse : str -> Z) (h : Hasher) (ns : str) (m : model), @model_ok h m ->
    exists m', @parse_model f64_parse h (write_smithy f64_str debug_str ns m) = Ok m'.
Definition applied_trait : model := one_shape (Shape (ex_id "A") [(api_id "title", Some (VString "x"))] KUnresolved).
Theorem C40_apply_refuted : ~ written_is_read.
Proof.
  intros R. destruct (R no_float quoted zero_parse zero_hasher ex_ns applied_trait) as (m' & P); [unfold applied_trait, one_shape; solve_model_ok applied_trait|].
  vm_compute in P. discriminate P.
Qed.
Print Assumptions C40_apply_refuted.
Definition md_object : model := md_model (VObject [(lit "a", VBoolean true)]).
Theorem C40_metadata_object_refuted : ~ written_is_read.
Proof.
  intros R. destruct (R no_float quoted zero_parse zero_hasher ex_ns md_object) as (m' & P); [unfold md_object, md_model; solve_model_ok md_object|].
  vm_compute in P. discriminate P.
Qed.
Print Assumptions C40_metadata_object_refuted.

(* ---------------------------------------------------------------- C39 *)
Definition read_idl (s : string) : result model := @parse_model zero_parse zero_hasher (lit s).

(** The grammar decides every text: matching ends, with the document or with a failure. *)
Theorem C39_total :
  forall s : str, exists r, parse_rule smithy_grammar (smithy_fuel s) I_idl s = Some r.
Proof.
  intros s. unfold parse_rule. destruct (smithy_total false I_idl s (smithy_fuel s) (le_n _)) as [[[ps s']|] E]; rewrite E; eauto.
Qed.
Print Assumptions C39_total.
(** The bound on the steps does not matter: any number of steps that suffices gives the same answer. *)
Theorem C39_steps :
  forall (s : str) f r, run smithy_grammar f false (PCall I_idl) s = Some r -> run smithy_grammar (smithy_fuel s) false (PCall I_idl) s = Some r.
Proof.
  intros s f r E. destruct (smithy_total false I_idl s (smithy_fuel s) (le_n _)) as [r' E']. rewrite E'. f_equal.
  apply (PegFacts.evals_det smithy_grammar false (PCall I_idl) s); eapply PegFacts.ev_run; eassumption.
Qed.
Print Assumptions C39_steps.
Example C39_ex_steps : exists r, run smithy_grammar 300 false (PCall I_idl) (lit "namespace a string S") = Some (Some r).
Proof. eexists. vm_compute. reflexivity. Qed.

(** Layout has no meaning: two documents with the same tokens are both rejected, with the same error, or both
    read as the same model. *)
Theorem C39_layout :
  forall (f64_parse : str -> Z) (h : Hasher) (s t : str), same_tokens s t -> parse_model f64_parse s = parse_model f64_parse t.
Proof. intros f64_parse h s t S. exact (LayoutParse.layout_is_free f64_parse s t S). Qed.
Print Assumptions C39_layout.
(** Hence a writable model is read from every document that has the tokens of the written one. *)
Theorem C39_free_documents :
  forall f64_str debug_str f64_parse (h : Hasher) ns m t, model_writable f64_str debug_str f64_parse ns m ->
    same_tokens (write_smithy f64_str debug_str ns m) t ->
    exists m', parse_model f64_parse t = Ok m'
               /\ m_version m' = m_version m
               /\ m_metadata m' = map metadata_back (m_metadata m)
               /\ Permutation (m_shapes m') (map (fun s => (ts_id s, shape_back s)) (written ns m)).
Proof.
  intros fs ds fp h ns m t MW S. rewrite <- (C39_layout fp h _ t S). exact (C40_round_trip fs ds fp ns m MW).
Qed.
Print Assumptions C39_free_documents.
(** Tactics for concrete documents: where the layout at the start of a text ends, and the end of a line or a quote. *)
Fixpoint until (p : ascii -> bool) (s : str) : nat := match s with c :: s' => if p c then 0 else S (until p s') | [] => 0 end.
Fixpoint gap_length (n : nat) (s : str) : nat :=
  match n, s with
  | S n, c :: s' =>
      if space_char c then S (gap_length n s')
      else match strip_prefix (lit "///") s, strip_prefix (lit "//") s with
           | None, Some r => let k := 3 + until (Ascii.eqb (ascii_of_N 10)) r in k + gap_length n (skipn k s)
           | _, _ => 0
           end
  | _, _ => 0
  end.
Ltac solve_comment := repeat (eapply comment_cons; [reflexivity|first [left; reflexivity|right; split; discriminate]|]); apply comment_nil.
Ltac solve_layout :=
  lazymatch goal with
  | |- layout [] => apply layout_nil
  | |- layout ("/"%char :: "/"%char :: ?r) =>
      let k := eval vm_compute in (until (Ascii.eqb (ascii_of_N 10)) r) in
      let b := eval vm_compute in (firstn k r) in
      let w := eval vm_compute in (skipn (S k) r) in
      refine (layout_comment b (ascii_of_N 10) w _ _ (or_introl eq_refl) _); [solve_comment|discriminate|solve_layout]
  | |- _ => apply layout_char; [reflexivity|solve_layout]
  end.
Ltac solve_gaps := split; [solve_layout|split; [solve_layout|first [right; reflexivity|right; exact I|left; split; (reflexivity || discriminate)]]].
(** The text of a block begins with neither layout nor a comment of two slashes. *)
Definition plain_block (s : str) : bool :=
  forallb (fun c => (plain_ascii c || Ascii.eqb c dquote)%bool) s
  && negb (existsb (fun n => str_eqb (firstn 3 (skipn n (s ++ three_quotes))) three_quotes) (seq 0 (length s))).
Lemma plain_block_body s : plain_block s = true -> block_body s.
Proof.
  unfold plain_block. rewrite andb_true_iff, negb_true_iff. intros [P Q].
  induction s as [|c s IH]; [constructor|]. cbn [forallb] in P. apply andb_true_iff in P as [C P].
  cbn [length seq existsb skipn] in Q. rewrite <- seq_shift in Q. apply orb_false_iff in Q as [Q R].
  assert (B : block_body s).
  { apply IH; [exact P|]. rewrite <- R. generalize (seq 0 (length s)). induction l as [|n l IHl]; [reflexivity|]. cbn [map existsb]. rewrite IHl. reflexivity. }
  apply orb_true_iff in C as [C|C].
  - assert (X : Peg.decode1 (c :: s) = Some (N_of_ascii c, s)) by (destruct c as [[] [] [] [] [] [] [] []]; (discriminate C || reflexivity)).
    apply (block_plain _ _ _ X); [..|exact B]; unfold plain_ascii in C; cbv zeta in C; rewrite !andb_true_iff, !negb_true_iff, N.leb_le, N.ltb_lt, !N.eqb_neq in C; lia.
  - apply Ascii.eqb_eq in C as ->. apply block_quote; [|exact B]. intros r E. revert Q. cbn [app]. rewrite E. discriminate.
Qed.
Fixpoint block_length (r : str) : nat :=
  match r with [] => 0 | _ :: r' => if str_eqb (firstn 3 r) three_quotes then 0 else S (block_length r') end.
Ltac solve_after := split; [intros ? ? E; first [discriminate E|injection E as <- <-; reflexivity]|intros ? E; discriminate E].
Ltac solve_same :=
  lazymatch goal with
  | |- same [] [] => apply same_end
  | |- same ("/"%char :: "/"%char :: "/"%char :: ?r) ("/"%char :: "/"%char :: "/"%char :: ?r') =>
      let k := eval vm_compute in (until (Ascii.eqb (ascii_of_N 10)) r) in
      let b := eval vm_compute in (firstn k r) in
      let a := eval vm_compute in (skipn (S k) r) in let a' := eval vm_compute in (skipn (S k) r') in
      let n := eval vm_compute in (gap_length 1000 a) in let n' := eval vm_compute in (gap_length 1000 a') in
      let g := eval vm_compute in (firstn n a) in let g' := eval vm_compute in (firstn n' a') in
      let s := eval vm_compute in (skipn n a) in let t := eval vm_compute in (skipn n' a') in
      refine (same_documentation b g g' s t _ _ _ _); [solve_comment|solve_layout|solve_layout|solve_same]
  | |- same ("034"%char :: "034"%char :: "034"%char :: ?r) ("034"%char :: "034"%char :: "034"%char :: ?r') =>
      let i := eval vm_compute in (gap_length 1000 r) in let i' := eval vm_compute in (gap_length 1000 r') in
      let h := eval vm_compute in (firstn i r) in let h' := eval vm_compute in (firstn i' r') in
      let b := eval vm_compute in (skipn i r) in let b' := eval vm_compute in (skipn i' r') in
      let k := eval vm_compute in (block_length b) in
      let q := eval vm_compute in (firstn k b) in
      let a := eval vm_compute in (skipn (k + 3) b) in let a' := eval vm_compute in (skipn (k + 3) b') in
      let n := eval vm_compute in (gap_length 1000 a) in let n' := eval vm_compute in (gap_length 1000 a') in
      let g := eval vm_compute in (firstn n a) in let g' := eval vm_compute in (firstn n' a') in
      let s := eval vm_compute in (skipn n a) in let t := eval vm_compute in (skipn n' a') in
      refine (same_block q h h' g g' s t _ _ _ _ _ _);
        [solve_layout|solve_layout|apply plain_block_body; vm_compute; reflexivity|solve_after|solve_gaps|solve_same]
  | |- same (?c :: ?r) (_ :: ?r') =>
      let isq := eval vm_compute in (Ascii.eqb c dquote) in
      lazymatch isq with
      | true =>
          let k := eval vm_compute in (until (Ascii.eqb dquote) r) in
          let q := eval vm_compute in (firstn k r) in
          let a := eval vm_compute in (skipn (S k) r) in let a' := eval vm_compute in (skipn (S k) r') in
          let n := eval vm_compute in (gap_length 1000 a) in let n' := eval vm_compute in (gap_length 1000 a') in
          let g := eval vm_compute in (firstn n a) in let g' := eval vm_compute in (firstn n' a') in
          let s := eval vm_compute in (skipn n a) in let t := eval vm_compute in (skipn n' a') in
          refine (same_text q g g' s t _ _ _ _);
            [repeat (eapply text_plain; [reflexivity|split; discriminate|discriminate|discriminate|]); apply text_nil
            |solve_gaps|discriminate|solve_same]
      | false =>
          let n := eval vm_compute in (gap_length 1000 r) in let n' := eval vm_compute in (gap_length 1000 r') in
          let g := eval vm_compute in (firstn n r) in let g' := eval vm_compute in (firstn n' r') in
          let s := eval vm_compute in (skipn n r) in let t := eval vm_compute in (skipn n' r') in
          let d := eval vm_compute in (delimiter c) in
          lazymatch d with
          | true => refine (same_delimiter c g g' s t eq_refl _ _ _); [solve_layout|solve_layout|solve_same]
          | false => refine (same_char c g g' s t eq_refl eq_refl _ _); [solve_gaps|solve_same]
          end
      end
  end.
Ltac solve_tokens :=
  lazymatch goal with
  | |- same_tokens ?x ?y =>
      let r := eval vm_compute in x in let r' := eval vm_compute in y in
      let n := eval vm_compute in (gap_length 1000 r) in let n' := eval vm_compute in (gap_length 1000 r') in
      let g := eval vm_compute in (firstn n r) in let g' := eval vm_compute in (firstn n' r') in
      let s := eval vm_compute in (skipn n r) in let t := eval vm_compute in (skipn n' r') in
      refine (same_tokens_intro g g' s t _ _ _); [solve_layout|solve_layout|solve_same]
  end.
Definition lf : string := String (ascii_of_N 10) EmptyString.
Definition laid_out : string :=
  "// two shapes" ++ lf ++ "namespace a" ++ lf ++ "@t( x : [1, // one" ++ lf ++ " ""b"" ] )string S" ++ lf ++ "structure T{m:S}" ++ lf.
Example C39_ex_layout :
  same_tokens (lit "namespace a @t(x:[1 ""b""]) string S structure T { m: S }") (lit laid_out)
  /\ exists m, read_idl laid_out = Ok m /\ length (m_shapes m) = 2.
Proof.
  split; [solve_tokens|]. eexists. split; [vm_compute; reflexivity|reflexivity].
Qed.

(** A block, with other layout in front of its text. *)
Definition block_document (g : string) : string := "namespace a @t(""""""" ++ g ++ "A ""city"", // not ""a town"".""""""" ++ g ++ ") string S".
Example C39_ex_block :
  same_tokens (lit (block_document "")) (lit (block_document (lf ++ "  // layout" ++ lf)))
  /\ (exists m, read_idl (block_document "") = Ok m) /\ read_idl (block_document "") = read_idl (block_document (lf ++ "  // layout" ++ lf)).
Proof. split; [solve_tokens|]. split; [eexists; vm_compute; reflexivity|vm_compute; reflexivity]. Qed.

(** The document written for [idl_model], with its commas and line ends made comments. *)
Fixpoint relaid (inside : bool) (s : str) : str :=
  match s with
  | c :: s' =>
      if Ascii.eqb c dquote then c :: relaid (negb inside) s'
      else if negb inside && (Ascii.eqb c "," || Ascii.eqb c (ascii_of_N 10)) then lit " // " ++ ascii_of_N 10 :: relaid inside s'
      else c :: relaid inside s'
  | [] => []
  end.
Example C39_ex_free :
  same_tokens (write_smithy no_float quoted ex_ns idl_model) (relaid false (write_smithy no_float quoted ex_ns idl_model))
  /\ write_smithy no_float quoted ex_ns idl_model <> relaid false (write_smithy no_float quoted ex_ns idl_model).
Proof. split; [solve_tokens|vm_compute; discriminate]. Qed.

(** Documents and what they mean by the Smithy specification; none of these readings holds. *)
Definition trait_value (s : string) : option (option value) :=
  match read_idl s with
  | Ok m => match map snd (m_shapes m) with s :: _ => match ts_traits s with (_, v) :: _ => Some v | [] => None end | [] => None end
  | _ => None
  end.
(** [apply] statements belong to the grammar but are always an error. *)
Theorem C39_apply_refuted : ~ (exists m, read_idl "namespace a string S apply S @required" = Ok m).
Proof. intros [m E]. vm_compute in E. discriminate E. Qed.
Print Assumptions C39_apply_refuted.
(** Quoted keys keep their quotes, escapes are not decoded, words starting like a keyword lose their start. *)
Theorem C39_quoted_key_refuted : trait_value "namespace a @t({""k"": 1}) string S" <> Some (Some (VObject [(lit "k", VNumber (NInteger 1))])).
Proof. vm_compute. discriminate. Qed.
Print Assumptions C39_quoted_key_refuted.
Theorem C39_escape_refuted : trait_value "namespace a @t(""a\tb"") string S" <> Some (Some (VString ("a"%char :: ascii_of_N 9 :: ["b"%char]))).
Proof. vm_compute. discriminate. Qed.
Print Assumptions C39_escape_refuted.
Theorem C39_keyword_refuted : trait_value "namespace a @t(nullable) string S" = Some (Some (VString (lit "able"))).
Proof. vm_compute. reflexivity. Qed.
Print Assumptions C39_keyword_refuted.
(** A text block loses what looks like layout at its start: white space, commas and whole comments. *)
Theorem C39_text_block_refuted :
  trait_value ("namespace a @t(""""""" ++ lf ++ "// b" ++ lf ++ ", c"""""") string S") = Some (Some (VString (lit "c"))).
Proof. vm_compute. reflexivity. Qed.
Print Assumptions C39_text_block_refuted.
(** Numbers with an exponent and no point are errors. *)
Theorem C39_exponent_refuted : ~ (exists m, read_idl "namespace a @t(1e3) string S" = Ok m).
Proof. intros [m E]. vm_compute in E. discriminate E. Qed.
Print Assumptions C39_exponent_refuted.
(** Characters beyond U+10FFF are rejected (U+1F600 here). *)
Theorem C39_emoji_refuted :
  ~ (exists m, @parse_model zero_parse zero_hasher (lit "namespace a @t(""" ++ map ascii_of_N [240; 159; 152; 128]%N ++ lit """) string S") = Ok m).
Proof. intros [m E]. vm_compute in E. discriminate E. Qed.
Print Assumptions C39_emoji_refuted.
(** Metadata are lost when no namespace follows. *)
Theorem C39_metadata_refuted : read_idl "metadata x = 1" = Ok (model_new V10).
Proof. vm_compute. reflexivity. Qed.
Print Assumptions C39_metadata_refuted.
(** Declaring a shape twice is not an error: the last one stays. *)
Theorem C39_duplicate_refuted : exists m, read_idl "namespace a string S integer S" = Ok m /\ map (fun e => ts_body (snd e)) (m_shapes m) = [KSimple SInteger].
Proof. eexists. split; vm_compute; reflexivity. Qed.
Print Assumptions C39_duplicate_refuted.
(** Documents that make the parser panic. *)
Theorem C39_panics_refuted :
  read_idl "namespace a service S { }" = Panic
  /\ read_idl "namespace a service S { version: """" }" = Panic
  /\ read_idl "namespace a structure S { x: foo$bar }" = Panic
  /\ read_idl "namespace a operation O { input: 5 }" = Panic.
Proof. repeat split; vm_compute; reflexivity. Qed.
Print Assumptions C39_panics_refuted.
