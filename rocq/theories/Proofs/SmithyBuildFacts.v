(** The builder that a written document is read as makes the model that was written, but for what the IDL cannot say. *)
From Coq Require Import Permutation.
From Verif.Model Require Import Builder SmithyParse SmithyWrite.
From Verif.Spec Require Import IdentitySpec BuilderSpec SmithySpec.
From Verif.Proofs Require Import BaseFacts HashMapFacts IdentityFacts BuilderFacts SmithyShapeFacts SmithyFacts SmithyDocFacts.
From Verif.Proofs Require JsonFacts ReorderFacts.

Lemma each_ok {A B} (f : A -> making B) l xs : Forall2 (fun a x => forall rs, f a rs = Ok (x, rs)) l xs -> forall rs, each f l rs = Ok (xs, rs).
Proof.
  induction 1 as [|a x l xs E F IH]; intros rs; [reflexivity|]. cbn [each]. unfold and_then. rewrite E, IH. reflexivity.
Qed.
Lemma each_map {A B C} (f : A -> making B) (g : C -> A) (h : C -> B) l : Forall (fun c => forall rs, f (g c) rs = Ok (h c, rs)) l ->
  forall rs, each f (map g l) rs = Ok (map h l, rs).
Proof. intros F. apply each_ok. induction F; cbn; constructor; auto. Qed.
Lemma each_id {A B} (f : A -> making B) (g : B -> A) l : Forall (fun c => forall rs, f (g c) rs = Ok (c, rs)) l ->
  forall rs, each f (map g l) rs = Ok (l, rs).
Proof. intros F rs. rewrite (each_map f g (fun c => c) l F), map_id. reflexivity. Qed.
Lemma each_forall {A B} (f : A -> making B) (g : B -> A) (P : B -> Prop) l : (forall c, P c -> forall rs, f (g c) rs = Ok (c, rs)) -> Forall P l ->
  forall rs, each f (map g l) rs = Ok (l, rs).
Proof. intros I F. apply each_id. eapply Forall_impl; [|exact F]. exact I. Qed.
Lemma maybe_ok {A B} (f : A -> making B) (g : B -> A) (P : B -> Prop) o : (forall c, P c -> forall rs, f (g c) rs = Ok (c, rs)) ->
  match o with Some c => P c | None => True end -> forall rs, maybe f (option_map g o) rs = Ok (o, rs).
Proof. intros I F rs. destruct o as [c|]; [|reflexivity]. cbn [option_map maybe]. unfold and_then. rewrite (I c F). reflexivity. Qed.

Section Made.
  Variables (f64_str : Z -> str) (debug_str : str -> str) (f64_parse : str -> Z).
  Context `{Hasher}.
  Variables (ns : str) (m : model).
  Hypothesis MW : model_writable f64_str debug_str f64_parse ns m.
  Notation b := (doc_builder ns m).
  Notation imps := (SmithyDocFacts.imported ns m).
  Notation owns_ := (owned ns m).
  Notation found := (found ns m).
  Notation tb := (tb ns).
  Notation mb := (mb ns).
  Notation bb := (bb ns).

  Lemma bb_reference k : bb k = BReference -> k = KUnresolved.
  Proof. destruct k; cbn; congruence. Qed.
  Lemma doc_ok : builder_ok b.
  Proof.
    split; [apply (builder_names f64_str debug_str f64_parse), MW|]. split; [|apply quoted_distinct, MW].
    intros k s I. cbn [bd_shapes doc_builder] in I. apply in_map_iff in I as (sb & [= <- <-] & I). split; [apply (eqv_refl _ name_key_equiv)|].
    apply in_app_or in I as [I|I]; apply in_map_iff in I as (x & <- & I); cbn [sb_body sb_name sb_import sb_own]; [eauto|].
    intros E. apply bb_reference in E. apply filter_In in I as [_ I]. apply not_bare in I. contradiction.
  Qed.
  Lemma imported_doc q : BuilderSpec.imported b q <-> imports ns m q.
  Proof.
    unfold BuilderSpec.imported, imports. cbn [bd_shapes doc_builder]. split.
    - intros (s & I & E). apply in_map_iff in I as (sb & [= EQ <-] & I).
      apply in_app_or in I as [I|I]; apply in_map_iff in I as (x & <- & I); cbn [sb_body sb_name sb_import sb_own] in *.
      + injection EQ as <-. apply filter_In in I as [I J]. eauto.
      + discriminate.
    - intros (s & I & J & <-). exists (sb_import s). split; [|reflexivity]. apply in_map_iff. exists (sb_import s). split; [reflexivity|].
      apply in_or_app. left. apply in_map. apply filter_In. auto.
  Qed.
  Lemma own_spec s : In s (written ns m) -> is_own ns s = true -> own_writable f64_str debug_str f64_parse ns m s.
  Proof. destruct MW as (_ & _ & _ & _ & _ & _ & OW & _). rewrite Forall_forall in OW. intros I E. exact (OW s I E). Qed.
  Lemma declared_doc n : declared b n <-> exists i, SmithySpec.owns ns m i /\ ident_key_eqb (sid_name i) n = true.
  Proof.
    unfold declared, SmithySpec.owns. cbn [bd_shapes doc_builder]. split.
    - intros (n' & s & I & E). apply in_map_iff in I as (sb & [= EQ <-] & I).
      apply in_app_or in I as [I|I]; apply in_map_iff in I as (x & <- & I); cbn [sb_body sb_name sb_import sb_own] in *.
      + discriminate.
      + injection EQ as <-. apply filter_In in I as [I J]. exists (ts_id x). split; [eauto|exact E].
    - intros (i & (s & I & J & <-) & E). exists (sid_name (ts_id s)), (sb_own ns s). split; [|exact E]. apply in_map_iff. exists (sb_own ns s). split; [reflexivity|].
      apply in_or_app. right. apply in_map. apply filter_In. auto.
  Qed.
  Lemma no_import n : SmithySpec.not_imported ns m n -> forall q, ~ import_of b n q.
  Proof. intros N q [I S]. apply imported_doc in I. exact (N q I S). Qed.

  Definition gets (t : bool) (n : shape_name) (id : shape_id) : Prop := forall rs, resolve b t n rs = Ok (id, rs).
  Lemma gets_resolution t n id : resolution b t n (Ok (id, false)) -> gets t n id.
  Proof. intros R rs. unfold resolve. apply (resolve_spec _ _ _ _ doc_ok) in R. rewrite R. reflexivity. Qed.
  Lemma gets_found t id : found t id -> gets t (loc id) id.
  Proof.
    intros F. apply gets_resolution. unfold loc. destruct F as [id I U|id O N|n P N1 N2].
    - apply rn_import; [split; [apply imported_doc, I|reflexivity]|]. intros q [Iq S]. apply U; [apply imported_doc, Iq|exact S].
    - destruct O as (s & I & E & <-). destruct (own_spec s I E) as ((n & EI & _ & NI) & _). rewrite EI in *. cbn [sid_name] in *.
      apply (rn_declared b t n); [apply no_import, N|]. apply declared_doc. exists (SID ns n None). split; [exists s; auto|apply ident_key_refl].
    - cbn [sid_name]. apply rn_prelude; [apply no_import, N1| |exact P]. intros D. apply declared_doc in D as (i & O & E). apply (N2 i O).
      apply andb_true_iff in E as [_ E]. apply str_eqb_eq in E. exact E.
  Qed.
  Lemma gets_local id : local ns m id -> gets false (loc id) id.
  Proof. intros [_ F]. apply gets_found, F. Qed.
  Lemma gets_value id : local_value ns m id -> gets false (loc id) id.
  Proof. intros [L _]. apply gets_local, L. Qed.
  Lemma gets_absolute t id : absolute id -> gets t (Qualified id) id.
  Proof. intros (_ & _ & M). apply gets_resolution, rn_absolute, M. Qed.

  Lemma made_traits ts : traits_writable f64_str debug_str f64_parse ns m ts -> forall rs, make_traits b (map tb ts) rs = Ok (map trait_back ts, rs).
  Proof.
    intros [D F] rs. unfold make_traits, and_then. rewrite (each_map _ tb trait_back ts).
    - unfold give. f_equal. f_equal. apply JsonFacts.hm_from_list_distinct; [|apply (eqv_sym _ sid_key_equiv)].
      apply distinct_fst. apply distinct_fst in D. rewrite map_map. exact D.
    - eapply Forall_impl; [|exact F]. intros [i v] [W _] rs'. cbn [fst] in W. unfold and_then, SmithyShapeFacts.tb. cbn [tb_id tb_value fst snd].
      assert (G : gets true (tref ns i) i).
      { unfold tref. destruct (ns_eqb (sid_ns i) ns || ns_eqb (sid_ns i) prelude_ns) eqn:B.
        - apply bare_spec in B. destruct W as [(_ & _ & Fd)|[N _]]; [|contradiction]. exact (gets_found _ _ Fd).
        - destruct W as [(N & _)|[_ A]]; [apply bare_spec in N; congruence|]. apply gets_absolute, A. }
      rewrite G. destruct v; reflexivity.
  Qed.
  Lemma made_members ms : members_writable f64_str debug_str f64_parse ns m ms -> forall rs,
    make_members b (map (fun e => mb (snd e)) ms) rs = Ok (map (fun e => (ms_id (snd e), member_back (snd e))) ms, rs).
  Proof.
    intros [D F] rs. unfold make_members, and_then at 1. rewrite (each_map _ (fun e => mb (snd e)) (fun e => member_back (snd e)) ms).
    - unfold give. rewrite JsonFacts.su_with_members_distinct; rewrite map_map; [reflexivity|]. apply distinct_fst. apply distinct_fst in D. rewrite map_map in *. exact D.
    - eapply Forall_impl; [|exact F]. intros [k x] (_ & T & L) rs'. cbn [snd] in *. unfold and_then at 1. cbn [mb_target mb SmithyShapeFacts.mb]. rewrite (gets_local _ L).
      unfold make_member, and_then. cbn [mb_traits mb_name SmithyShapeFacts.mb]. rewrite (made_traits _ T). reflexivity.
  Qed.
  Lemma made_body k : body_writable f64_str debug_str f64_parse ns m k -> forall rs, make_body b (bb k) rs = Ok (body_back k, rs).
  Proof.
    intros W rs. destruct k as [st|x|x|k v|ms|ms|sv|o|r|]; cbn [bb SmithyShapeFacts.bb make_body body_writable] in *.
    - reflexivity.
    - unfold and_then at 1. cbn [mb_target]. rewrite (gets_absolute false _ W). reflexivity.
    - unfold and_then at 1. cbn [mb_target]. rewrite (gets_absolute false _ W). reflexivity.
    - destruct W as [L1 L2]. unfold and_then at 1. cbn [mb_target]. rewrite (gets_local _ L1). unfold and_then at 1. rewrite (gets_local _ L2). reflexivity.
    - unfold and_then. rewrite (made_members _ W). reflexivity.
    - unfold and_then. rewrite (made_members _ W). reflexivity.
    - destruct W as (NE & _ & O & R). cbn [svb_version svb_operations svb_resources svb_renames]. unfold and_then at 1, assert_or_panic.
      replace (str_eqb (sv_version sv) []) with false by (symmetry; apply str_eqb_neq, NE). cbn [negb].
      unfold and_then. rewrite (each_forall _ loc _ _ gets_value O), (each_forall _ loc _ _ gets_value R). reflexivity.
    - destruct W as (I & U & E). cbn [opb_input opb_output opb_errors]. unfold and_then.
      rewrite (maybe_ok _ loc _ _ gets_value I), (maybe_ok _ loc _ _ gets_value U), (each_forall _ loc _ _ gets_value E). destruct o; reflexivity.
    - destruct W as (D & FI & FO & FL). cbn [rsb_identifiers rsb_create rsb_put rsb_read rsb_update rsb_delete rsb_list rsb_operations rsb_collection_operations rsb_resources].
      rewrite !Forall_app in FL. destruct FL as (FL1 & FL2 & FL3).
      repeat match goal with F : Forall _ (_ :: _) |- _ => inversion F; clear F; subst end. unfold and_then at 1.
      rewrite (each_id _ (fun e : str * shape_id => (fst e, loc (snd e))) (rs_identifiers r)).
      + unfold and_then. repeat match goal with F : opt_local_value _ _ _ |- _ => rewrite (maybe_ok _ loc _ _ gets_value F); clear F end.
        rewrite (each_forall _ loc _ _ gets_value FL1), (each_forall _ loc _ _ gets_value FL2), (each_forall _ loc _ _ gets_value FL3).
        unfold give. rewrite (JsonFacts.hm_from_list_distinct _ _ D) by apply (eqv_sym _ ident_key_equiv). destruct r; reflexivity.
      + eapply Forall_impl; [|exact FI]. intros [i x] [_ L] rs'. cbn [fst snd] in *. unfold and_then. rewrite (gets_value _ L). reflexivity.
    - reflexivity.
  Qed.
  Lemma made_own s : In s owns_ -> forall rs, make_shape b (sb_own ns s) rs = Ok (shape_back s, rs).
  Proof.
    intros I rs. apply filter_In in I as [I E]. destruct (own_spec s I E) as ((n & EI & S & N) & T & W). assert (NB := not_bare _ _ E).
    unfold make_shape, and_then at 1, make_id. cbn [sb_body sb_name sb_traits sb_own].
    assert (G : gets false (Local (sid_name (ts_id s))) (ts_id s)).
    { apply gets_found. apply found_own; [exists s; auto|]. rewrite EI. exact N. }
    replace (match bb (ts_body s) with
             | BReference => match Local (sid_name (ts_id s)) with Qualified i => give i | Local _ => fun _ => Panic end
             | _ => resolve b false (Local (sid_name (ts_id s))) end) with (resolve b false (Local (sid_name (ts_id s)))).
    - rewrite G. unfold and_then. rewrite (made_body _ W), (made_traits _ T). reflexivity.
    - destruct (bb (ts_body s)) eqn:B; try reflexivity. apply bb_reference in B. contradiction.
  Qed.
  Lemma made_import s : In s imps -> forall rs, make_shape b (sb_import s) rs = Ok (shape_back s, rs).
  Proof.
    intros I rs. apply filter_In in I as [_ E]. unfold is_import in E. unfold shape_back.
    destruct (ts_body s); try discriminate E. destruct (ts_traits s); [|discriminate E]. reflexivity.
  Qed.
  Lemma make_all l : forall sbs m0 rs,
    Forall2 (fun sb s => forall rs, make_shape b sb rs = Ok (s, rs)) sbs l ->
    Forall (fun s => sid_member (ts_id s) = None) l ->
    distinct sid_key_eqb (m_shapes m0 ++ map (fun s => (ts_id s, s)) l) ->
    make_shapes b m0 (map (fun sb => (sb_name sb, sb)) sbs) rs = Ok (set_shapes m0 (m_shapes m0 ++ map (fun s => (ts_id s, s)) l), rs).
  Proof.
    induction l as [|s l IH]; intros sbs m0 rs F M D; inversion F as [|sb s0 sbs' l' E F']; subst; cbn [map make_shapes].
    - rewrite app_nil_r. destruct m0; reflexivity.
    - inversion M as [|s0 l0 M1 M2]; subst. unfold and_then at 1. rewrite E.
      assert (A : add_shape m0 s = (set_shapes m0 (m_shapes m0 ++ [(ts_id s, s)]), Ok tt)).
      { unfold add_shape, sid_is_member. rewrite M1. cbn [andb]. unfold model_shape.
        assert (G : hm_get sid_key_eqb (ts_id s) (m_shapes m0) = None).
        { apply hm_get_None_In. intros k v I. clear -D I. revert I D. generalize (m_shapes m0) as acc. induction acc as [|[a c] acc IH]; intros I D; [destruct I|].
          cbn [app distinct] in D. destruct D as [D1 D2]. destruct I as [[= -> ->]|I]; [|exact (IH I D2)]. rewrite (eqv_sym _ sid_key_equiv). apply (D1 (ts_id s) s).
          apply in_or_app. right. left. reflexivity. }
        rewrite G, (hm_insert_fresh _ _ _ _ G). reflexivity. }
      rewrite A. rewrite (IH sbs' _ rs F' M2); cbn [m_shapes set_shapes]; rewrite <- app_assoc; [|exact D]. destruct m0; reflexivity.
  Qed.

  Definition back (s : shape) : shape_id * shape := (ts_id s, shape_back s).
  Lemma order : Permutation (imps ++ owns_) (written ns m).
  Proof.
    unfold SmithyDocFacts.imported, owned. unfold written. generalize (map snd (m_shapes m)) as l. induction l as [|s l IH]; [constructor|]. cbn [filter].
    destruct (is_import s) eqn:I; cbn [orb].
    - assert (O : is_own ns s = false) by (unfold is_import in I; unfold is_own; destruct (ts_body s); try discriminate I; reflexivity).
      cbn [filter]. rewrite I, O. cbn [app]. constructor. exact IH.
    - destruct (is_own ns s) eqn:O; [|exact IH]. cbn [filter]. rewrite I, O. rewrite <- Permutation_middle. constructor. exact IH.
  Qed.
  Lemma built : build b = Ok (Model (m_version m) (map metadata_back (m_metadata m)) (map back (imps ++ owns_))).
  Proof.
    assert (BK := doc_ok). unfold build. change (fold_left (fun m kv => fst (add_metadata m (fst kv) (snd kv))) (bd_metadata b) (model_new (bd_version b))) with (meta_model b).
    rewrite (meta_model_spec _ BK). cbn [bd_shapes doc_builder].
    assert (DI : distinct sid_key_eqb (map (fun s => (ts_id s, s)) (imps ++ owns_))).
    { destruct MW as (_ & _ & _ & D & _). refine (distinct_perm _ sid_key_equiv _ _ _ D). apply Permutation_map. symmetry. apply order. }
    rewrite (make_all (map shape_back (imps ++ owns_))).
    - rewrite map_map. cbn [bd_version bd_metadata m_shapes app]. destruct (m_version m). reflexivity.
    - assert (A : Forall (fun s => In s (imps ++ owns_)) (imps ++ owns_)) by (apply Forall_forall; auto). rewrite map_app. apply Forall2_app.
      + assert (A1 : Forall (fun s => In s imps) imps) by (apply Forall_forall; auto). clear A. revert A1. generalize imps at 2 3 4 as l. induction l as [|s l IH]; intros A1; [constructor|].
        inversion A1; subst. cbn [map]. constructor; [|auto]. apply made_import. assumption.
      + assert (A1 : Forall (fun s => In s owns_) owns_) by (apply Forall_forall; auto). clear A. revert A1. generalize owns_ at 2 3 4 as l. induction l as [|s l IH]; intros A1; [constructor|].
        inversion A1; subst. cbn [map]. constructor; [|auto]. apply made_own. assumption.
    - rewrite Forall_map. apply Forall_app. split; apply Forall_forall; intros s I; cbn [shape_back ts_id]; apply filter_In in I as [I E].
      + destruct MW as (_ & _ & _ & _ & _ & AI & _). rewrite Forall_forall in AI. apply (AI s I E).
      + destruct (own_spec s I E) as ((n & EI & _) & _). rewrite EI. reflexivity.
    - cbn [m_shapes app]. apply distinct_fst. apply distinct_fst in DI. rewrite !map_map in *. exact DI.
  Qed.
  Lemma round_trip : exists m', parse_model f64_parse (write_smithy f64_str debug_str ns m) = Ok m' /\ m_version m' = m_version m
    /\ m_metadata m' = map metadata_back (m_metadata m) /\ Permutation (m_shapes m') (map back (written ns m)).
  Proof.
    eexists. split; [rewrite (parse_written f64_str debug_str f64_parse ns m MW); exact built|]. split; [reflexivity|]. split; [reflexivity|].
    cbn [m_shapes]. apply Permutation_map, order.
  Qed.
End Made.
