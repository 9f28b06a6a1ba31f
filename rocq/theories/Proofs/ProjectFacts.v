(** A model put in several files is assembled from them. *)
From Coq Require Import Sorting.Permutation.
From Verif.Model Require Import Json JsonText SmithyParse SmithyWrite Assembler.
From Verif.Spec Require Import ProjectSpec ReorderSpec.
From Verif.Proofs Require Import BaseFacts IdentityFacts HashMapFacts ValueFacts ShapeFacts ModelFacts MergeFacts MergeOrderFacts ReorderFacts ReorderEquiv EqualityFacts AssemblerFacts ReaderFacts.

Section Parts.
  Context `{Hasher}.

  Lemma somes_app {A} (l l' : list (option A)) : somes (l ++ l') = somes l ++ somes l'.
  Proof. induction l as [|[a|] l IH]; cbn; [reflexivity|f_equal; exact IH|exact IH]. Qed.
  Lemma somes_none {A B} (f : A -> option B) l : (forall x, In x l -> f x = None) -> somes (map f l) = [].
  Proof. induction l as [|x l IH]; intros N; [reflexivity|]. cbn. rewrite (N x (or_introl eq_refl)). apply IH. intros y I. apply N. right. exact I. Qed.
  Lemma somes_In {A B} (f : A -> option B) l b : In b (somes (map f l)) -> exists x, In x l /\ f x = Some b.
  Proof.
    induction l as [|x l IH]; [intros []|]. cbn. destruct (f x) as [c|] eqn:E.
    - intros [<-|I]; [exists x; split; [left; reflexivity|exact E]|]. destruct (IH I) as (y & J & G). exists y. split; [right; exact J|exact G].
    - intros I. destruct (IH I) as (y & J & G). exists y. split; [right; exact J|exact G].
  Qed.
  Lemma combined_one v : combined [v] = Some v.
  Proof. destruct v; cbn; rewrite ?app_nil_r; reflexivity. Qed.
  Lemma combined_trait_one v : combined_trait [v] = Some v.
  Proof. destruct v as [v|]; cbn [combined_trait somes]; [|reflexivity]. rewrite combined_one. reflexivity. Qed.
  Lemma mentioned_traits l t : (forall s, In s l -> only_mentioned s) -> somes (map (fun x => trait_named t (ts_traits x)) l) = [].
  Proof. intros A. apply somes_none. intros s I. destruct (A s I) as [-> _]. reflexivity. Qed.
  Lemma mentioned_body l l' : (forall s, In s l -> only_mentioned s) -> first_resolved (l ++ l') = first_resolved l'.
  Proof.
    induction l as [|s l IH]; intros A; [reflexivity|]. cbn. destruct (A s (or_introl eq_refl)) as [_ ->]. apply IH. intros x I. apply A. right. exact I.
  Qed.
  Lemma body_mentioned l : (forall s, In s l -> only_mentioned s) -> first_resolved l = KUnresolved.
  Proof. intros A. rewrite <- (app_nil_r l), (mentioned_body l [] A). reflexivity. Qed.
  Lemma mentioned_reordered s s' : only_mentioned s -> reorder_shape s s' -> only_mentioned s'.
  Proof.
    intros [T B] (_ & (l & P & F) & R). rewrite T in P. apply Permutation_nil in P as ->. inversion F; subst. split; [congruence|].
    rewrite B in R. inversion R; reflexivity.
  Qed.

  Lemma In_split_Permutation {A} (l rest : list A) x : Permutation l (x :: rest) -> exists l1 l2, l = l1 ++ x :: l2 /\ Permutation (l1 ++ l2) rest.
  Proof.
    intros P. assert (I : In x l) by (eapply Permutation_in; [symmetry; exact P|left; reflexivity]).
    apply in_split in I as (l1 & l2 & ->). exists l1, l2. split; [reflexivity|]. apply Permutation_cons_inv with x.
    rewrite Permutation_middle. exact P.
  Qed.
  Lemma Forall2_around {A B} (R : A -> B -> Prop) l1 x l2 ys :
    Forall2 R (l1 ++ x :: l2) ys -> exists y1 y y2, ys = y1 ++ y :: y2 /\ Forall2 R l1 y1 /\ R x y /\ Forall2 R l2 y2.
  Proof.
    intros F. apply Forall2_app_inv_l in F as (y1 & y2 & F1 & F2 & ->). inversion F2 as [|? y ? y2' Rx F2']; subst. exists y1, y, y2'. auto.
  Qed.
  Lemma Forall2_back {A B} (R : A -> B -> Prop) l ys y : Forall2 R l ys -> In y ys -> exists x, In x l /\ R x y.
  Proof.
    induction 1 as [|a b l ys E F IH]; [intros []|]. intros [<-|I]; [exists a; split; [left; reflexivity|exact E]|].
    destruct (IH I) as (x & J & Q). exists x. split; [right; exact J|exact Q].
  Qed.

  Variables (m : model) (ws ms : list model).
  Hypothesis MM : model_whole m.
  Hypothesis NN : ~ model_nan m.
  Hypothesis PP : parts_of m ws.
  Hypothesis RR : Forall2 reorder_model ws ms.
  Hypothesis WW : Forall model_whole ms.

  Lemma m_keys : distinct sid_key_eqb (m_shapes m) /\ distinct str_eqb (m_metadata m).
  Proof. destruct MM as [[(_ & D & E) _] _]. auto. Qed.
  Lemma part_ok w : In w ws -> distinct sid_key_eqb (m_shapes w) /\ distinct str_eqb (m_metadata w).
  Proof. intros I. destruct PP as (A & _). destruct (A w I) as [_ [(_ & D & E) _]]. auto. Qed.

  (** What is looked up in a part as read is what is looked up in the part, in another order. *)
  Lemma shape_read w x id : In w ws -> reorder_model w x -> opt_rel reorder_shape (model_shape w id) (model_shape x id).
  Proof. intros I (_ & _ & S). apply (reordered_get sid_key_eqb sid_key_equiv); [apply part_ok, I|exact S]. Qed.
  Lemma value_read w x k : In w ws -> reorder_model w x -> opt_rel reorder_value (metadata_value w k) (metadata_value x k).
  Proof. intros I (_ & M & _). apply (reordered_get str_eqb str_eqb_equiv); [apply part_ok, I|exact M]. Qed.

  (** The entries of the parts. *)
  Lemma value_of_part w k v : In w ws -> metadata_value w k = Some v -> metadata_value m k = Some v.
  Proof.
    intros I G. unfold metadata_value in *. apply hm_get_Some_In in G as (k' & J & E). destruct PP as (_ & A & _).
    eapply (hm_get_In_key str_eqb str_eqb_equiv); [apply m_keys|exact (A w k' v I J)|exact E].
  Qed.
  Lemma shape_of_part w id s : In w ws -> model_shape w id = Some s ->
    model_shape m id = Some s \/ only_mentioned s /\ model_shape m id <> None.
  Proof.
    intros I G. unfold model_shape in *. apply hm_get_Some_In in G as (k & J & E). destruct PP as (_ & _ & _ & A & _).
    destruct (A w k s I J) as [In_m|[O N]].
    - left. eapply (hm_get_In_key sid_key_eqb sid_key_equiv); [apply m_keys|exact In_m|exact E].
    - right. split; [exact O|]. unfold model_shape in N. rewrite <- (hm_get_cong sid_key_eqb sid_key_equiv _ _ _ E). exact N.
  Qed.

  (** The metadata of the parts taken together. *)
  Lemma values_read k :
    match metadata_value m k with
    | None => somes (map (fun x => metadata_value x k) ms) = []
    | Some v => exists v', reorder_value v v' /\ somes (map (fun x => metadata_value x k) ms) = [v']
    end.
  Proof.
    destruct (metadata_value m k) as [v|] eqn:G.
    - assert (J := G). unfold metadata_value in J. apply hm_get_Some_In in J as (k' & J & E). apply str_eqb_eq in E as ->.
      destruct PP as (_ & _ & A & _). destruct (A k v J) as (w & rest & P & Iw & Out).
      destruct (In_split_Permutation _ _ _ P) as (l1 & l2 & Ew & Q).
      assert (Iw' : In w ws) by (rewrite Ew; apply in_or_app; right; left; reflexivity).
      pose proof RR as F. rewrite Ew in F. apply Forall2_around in F as (y1 & x & y2 & Em & F1 & Rx & F2).
      pose proof (value_read w x k Iw' Rx) as V.
      assert (Gw : metadata_value w k = Some v) by (eapply (hm_get_In str_eqb str_eqb_equiv); [apply part_ok, Iw'|exact Iw]).
      rewrite Gw in V. destruct (metadata_value x k) as [v'|] eqn:Gx; [|destruct V]. exists v'. split; [exact V|].
      assert (Others : forall l ys, Forall2 reorder_model l ys -> incl l (l1 ++ l2) -> somes (map (fun x => metadata_value x k) ys) = []).
      { intros l ys F In_l. apply somes_none. intros y Iy. destruct (Forall2_back _ _ _ _ F Iy) as (w' & Iw2 & R').
        assert (In' : In w' rest) by (eapply Permutation_in; [exact Q|apply In_l, Iw2]).
        assert (Iws : In w' ws) by (eapply Permutation_in; [symmetry; exact P|right; exact In']).
        pose proof (value_read w' y k Iws R') as V'. destruct (metadata_value y k) as [u|]; [|reflexivity].
        destruct (metadata_value w' k) as [u'|] eqn:Gw'; [|destruct V']. exfalso. apply (Out w' In').
        assert (Eu := value_of_part w' k u' Iws Gw'). rewrite G in Eu. injection Eu as ->.
        unfold metadata_value in Gw'. apply hm_get_Some_In in Gw' as (k2 & J2 & E2). apply str_eqb_eq in E2 as ->. exact J2. }
      rewrite Em, map_app. cbn [map]. rewrite somes_app, (Others l1 y1 F1); [|intros z Iz; apply in_or_app; left; exact Iz].
      cbn [app somes]. rewrite Gx. rewrite (Others l2 y2 F2); [reflexivity|]. intros z Iz. apply in_or_app. right. exact Iz.
    - apply somes_none. intros y Iy. destruct (Forall2_back _ _ _ _ RR Iy) as (w & Iw & R).
      pose proof (value_read w y k Iw R) as V. destruct (metadata_value y k) as [u|]; [|reflexivity].
      destruct (metadata_value w k) as [u'|] eqn:Gw; [|destruct V]. rewrite (value_of_part w k u' Iw Gw) in G. discriminate G.
  Qed.
  (** The shapes of the parts taken together. *)
  Lemma shapes_read id :
    match model_shape m id with
    | None => somes (map (fun x => model_shape x id) ms) = []
    | Some s => exists b s' a, somes (map (fun x => model_shape x id) ms) = b ++ s' :: a /\ reorder_shape s s'
                               /\ (forall y, In y (b ++ a) -> only_mentioned y)
    end.
  Proof.
    destruct (model_shape m id) as [s|] eqn:G.
    - assert (J := G). unfold model_shape in J. apply hm_get_Some_In in J as (k & J & E).
      destruct PP as (_ & _ & _ & _ & A). destruct (A k s J) as (w & rest & P & Iw & Out).
      destruct (In_split_Permutation _ _ _ P) as (l1 & l2 & Ew & Q).
      assert (Iw' : In w ws) by (rewrite Ew; apply in_or_app; right; left; reflexivity).
      pose proof RR as F. rewrite Ew in F. apply Forall2_around in F as (y1 & x & y2 & Em & F1 & Rx & F2).
      pose proof (shape_read w x id Iw' Rx) as V.
      assert (Gw : model_shape w id = Some s) by (eapply (hm_get_In_key sid_key_eqb sid_key_equiv); [apply part_ok, Iw'|exact Iw|exact E]).
      rewrite Gw in V. destruct (model_shape x id) as [s'|] eqn:Gx; [|destruct V].
      exists (somes (map (fun x => model_shape x id) y1)), s', (somes (map (fun x => model_shape x id) y2)).
      split; [rewrite Em, map_app, somes_app; cbn [map somes]; rewrite Gx; reflexivity|]. split; [exact V|].
      intros y Iy. rewrite <- somes_app, <- map_app in Iy. apply somes_In in Iy as (z & Iz & Gz).
      destruct (Forall2_back _ _ _ _ (Forall2_app F1 F2) Iz) as (w' & Iw2 & R').
      assert (In' : In w' rest) by (eapply Permutation_in; [exact Q|exact Iw2]).
      assert (Iws : In w' ws) by (eapply Permutation_in; [symmetry; exact P|right; exact In']).
      pose proof (shape_read w' z id Iws R') as V'. rewrite Gz in V'. destruct (model_shape w' id) as [u|] eqn:Gu; [|destruct V'].
      apply (mentioned_reordered u y); [|exact V']. apply (Out w' u In'). unfold model_shape in *.
      rewrite (hm_get_cong sid_key_eqb sid_key_equiv _ _ _ E). exact Gu.
    - apply somes_none. intros y Iy. destruct (Forall2_back _ _ _ _ RR Iy) as (w & Iw & R).
      pose proof (shape_read w y id Iw R) as V. destruct (model_shape y id) as [u|]; [|reflexivity].
      destruct (model_shape w id) as [u'|] eqn:Gw; [|destruct V].
      destruct (shape_of_part w id u' Iw Gw) as [X|[_ X]]; congruence.
  Qed.

  (** No two parts conflict. *)
  Lemma pairs_somes {A} (f : model -> option A) l (R : A -> A -> Prop) :
    ForallOrdPairs R (somes (map f l)) -> ForallOrdPairs (fun a b => forall x y, f a = Some x -> f b = Some y -> R x y) l.
  Proof.
    induction l as [|c l IH]; intros F; [constructor|]. cbn [map] in F. destruct (f c) as [u|] eqn:E; cbn [somes] in F.
    - inversion F as [|? ? F1 F2]; subst. constructor; [|apply IH, F2]. apply Forall_forall. intros d I x y Ex Ey. rewrite E in Ex. injection Ex as <-.
      rewrite Forall_forall in F1. apply F1. clear - I Ey. induction l as [|e l IHl]; [destruct I|]. cbn. destruct I as [->|I].
      + rewrite Ey. left. reflexivity.
      + destruct (f e); [right|]; apply IHl, I.
    - constructor; [|apply IH, F]. apply Forall_forall. intros d I x y Ex. congruence.
  Qed.
  Lemma pairs_all {A B} (R : B -> A -> A -> Prop) l : (forall k, ForallOrdPairs (R k) l) -> ForallOrdPairs (fun a b => forall k, R k a b) l.
  Proof.
    induction l as [|c l IH]; intros F; [constructor|]. constructor.
    - apply Forall_forall. intros d I k. specialize (F k). inversion F as [|? ? F1 F2]; subst. rewrite Forall_forall in F1. apply F1, I.
    - apply IH. intros k. specialize (F k). inversion F; assumption.
  Qed.
  Lemma pairs_and {A} (R S : A -> A -> Prop) l : ForallOrdPairs R l -> ForallOrdPairs S l -> ForallOrdPairs (fun a b => R a b /\ S a b) l.
  Proof.
    induction 1 as [|c l F1 F2 IH]; intros G; [constructor|]. inversion G as [|? ? G1 G2]; subst. constructor; [|apply IH, G2].
    rewrite Forall_forall in *. intros d I. split; [apply F1, I|apply G1, I].
  Qed.
  Lemma compatible_left a b : only_mentioned a -> shapes_compatible a b.
  Proof. intros [T B]. split; [left; exact B|]. intros t x y E. rewrite T in E. discriminate E. Qed.
  Lemma compatible_right a b : only_mentioned b -> shapes_compatible a b.
  Proof. intros [T B]. split; [right; left; exact B|]. intros t x y _ E. rewrite T in E. discriminate E. Qed.
  Lemma compatible_around b s a : (forall y, In y (b ++ a) -> only_mentioned y) -> ForallOrdPairs shapes_compatible (b ++ s :: a).
  Proof.
    induction b as [|c b IH]; intros F.
    - constructor; [apply Forall_forall; intros y I; apply compatible_right, F, I|]. cbn in F. induction a as [|c a IH]; [constructor|].
      constructor; [apply Forall_forall; intros y I; apply compatible_left, F; left; reflexivity|]. apply IH. intros y I. apply F. right. exact I.
    - cbn [app]. constructor; [apply Forall_forall; intros y I; apply compatible_left, F; left; reflexivity|]. apply IH. intros y I. apply F. right. exact I.
  Qed.
  Lemma parts_compatible : ForallOrdPairs models_compatible ms.
  Proof.
    unfold models_compatible. apply pairs_and.
    - apply pairs_all. intros k. apply (pairs_somes (fun x => metadata_value x k)). pose proof (values_read k) as V.
      destruct (metadata_value m k) as [v|]; [destruct V as (v' & _ & ->)|rewrite V]; repeat constructor.
    - apply pairs_all. intros id. apply (pairs_somes (fun x => model_shape x id)). pose proof (shapes_read id) as V.
      destruct (model_shape m id) as [s|]; [destruct V as (b & s' & a & -> & _ & F); apply compatible_around, F|rewrite V; constructor].
  Qed.

  Lemma whole_maps s : shape_whole s -> shape_maps s.
  Proof.
    intros (([D V] & B) & _ & M). split; [split; [exact D|]|split; [exact B|]].
    - intros t v I. rewrite Forall_forall in V. exact (proj2 (V _ I)).
    - intros x I. rewrite Forall_forall in M. assert (J : In x (ReaderSpec.body_members (ts_body s))) by (destruct (ts_body s); exact I).
      destruct (M x J) as [D' V']. split; [exact D'|]. intros t v I'. rewrite Forall_forall in V'. exact (proj2 (V' _ I')).
  Qed.
  Lemma whole_model_maps x : model_whole x -> model_maps x.
  Proof.
    intros [((_ & Ds & Dm) & _ & V) S]. split; [exact Dm|]. split; [exact Ds|]. split.
    - intros k v I. rewrite Forall_forall in V. exact (V _ I).
    - intros k s I. rewrite Forall_forall in S. apply whole_maps. exact (S _ I).
  Qed.
  Lemma m_clean s : (exists k, In (k, s) (m_shapes m)) -> shape_clean s.
  Proof.
    intros (k & I). destruct MM as [_ S]. rewrite Forall_forall in S. destruct (S _ I) as (O & _ & M). cbn in O, M.
    assert (N : ~ shape_nan s) by (intros X; apply NN; right; eauto). split; [exact O|]. unfold shape_nan, traits_nan in N. split.
    - apply Forall_forall. intros [t [v|]] J; [|exact Logic.I]. apply nan_free_spec. intros X. apply N. left. eauto.
    - apply Forall_forall. intros x J. rewrite Forall_forall in M. assert (J' : In x (ReaderSpec.body_members (ts_body s))) by (destruct (ts_body s); exact J).
      split; [apply M, J'|]. apply Forall_forall. intros [t [v|]] Jt; [|exact Logic.I]. apply nan_free_spec. intros X. apply N. right. exists x.
      split; [destruct (ts_body s); exact J'|]. eauto.
  Qed.

  Lemma found_id x id s : model_ok x -> model_shape x id = Some s -> same_id (ts_id s) id.
  Proof.
    intros ((K & _) & _) G. unfold model_shape in G. apply hm_get_Some_In in G as (k & I & E). destruct (K _ _ I) as [-> _].
    apply sid_eqb_same, sid_key_eqb_eq, E.
  Qed.
  Lemma parts_combined r : m_version r = m_version m -> model_whole r -> combined_model ms r -> model_eqb m r = true.
  Proof.
    intros Ev Wr [CM CS]. apply model_eqb_spec; [apply whole_model_maps, MM|apply whole_model_maps, Wr|]. split; [symmetry; exact Ev|]. split.
    - intros k. rewrite CM. pose proof (values_read k) as V. destruct (metadata_value m k) as [v|] eqn:G.
      + destruct V as (v' & R & ->). rewrite combined_one. cbn [opt_rel]. unfold metadata_value in G. apply hm_get_Some_In in G as (k' & I & _).
        destruct MM as [(_ & _ & O) _]. rewrite Forall_forall in O. specialize (O _ I). cbn in O.
        apply value_eqb_spec; [exact O|eapply reorder_value_ok; eassumption|]. apply reorder_value_eqb; [exact O| |exact R].
        apply nan_free_spec. intros X. apply NN. left. eauto.
      + rewrite V. exact Logic.I.
    - intros id. specialize (CS id). pose proof (shapes_read id) as V. destruct (model_shape m id) as [s|] eqn:G.
      + destruct V as (b & s' & a & E & R & F). rewrite E in CS.
        assert (In_m : exists k, In (k, s) (m_shapes m)) by (unfold model_shape in G; apply hm_get_Some_In in G as (k' & I & _); eauto).
        assert (M' : In s' (somes (map (fun x => model_shape x id) ms))) by (rewrite E; apply in_or_app; right; left; reflexivity).
        apply somes_In in M' as (x & Ix & Gx). assert (Wx : model_whole x) by (rewrite Forall_forall in WW; apply WW, Ix).
        assert (Ws' : shape_maps s').
        { unfold model_shape in Gx. apply hm_get_Some_In in Gx as (k' & I & _). destruct Wx as [_ S]. rewrite Forall_forall in S. apply whole_maps, (S _ I). }
        assert (Ms : shape_maps s).
        { destruct In_m as (k & I). destruct MM as [_ S]. rewrite Forall_forall in S. apply whole_maps, (S _ I). }
        assert (Q : equal_shape s s') by (apply shape_eqb_spec; [exact Ms|exact Ws'|apply reorder_shape_eqb; [apply m_clean, In_m|exact R]]).
        destruct (model_shape r id) as [u|] eqn:Gu; [|destruct b; destruct CS]. cbn [opt_rel].
        assert (CS' : ts_body u = first_resolved (b ++ s' :: a)
                      /\ forall t, trait_named t (ts_traits u) = combined_trait (somes (map (fun x => trait_named t (ts_traits x)) (b ++ s' :: a))))
          by (destruct b as [|c b]; cbn [app] in *; destruct CS as (_ & B & T); split; assumption). clear CS.
        destruct CS' as [B T]. destruct Q as (Qi & Qt & Qb).
        assert (Fb : forall y, In y b -> only_mentioned y) by (intros y I; apply F, in_or_app; left; exact I).
        assert (Fa : forall y, In y a -> only_mentioned y) by (intros y I; apply F, in_or_app; right; exact I).
        split; [|split].
        * apply same_id_trans with id; [exact (found_id m id s (proj1 MM) G)|]. apply same_id_sym. exact (found_id r id u (proj1 Wr) Gu).
        * intros t. rewrite T, map_app, somes_app. cbn [map]. rewrite (mentioned_traits b t Fb). cbn [app somes]. rewrite (mentioned_traits a t Fa).
          specialize (Qt t). destruct (trait_named t (ts_traits s')) as [v|]; [rewrite combined_trait_one|]; exact Qt.
        * rewrite B, (mentioned_body b _ Fb). cbn [first_resolved]. rewrite (body_mentioned a Fa). destruct (ts_body s'); exact Qb.
      + rewrite V in CS. destruct (model_shape r id); [destruct CS|exact Logic.I].
  Qed.
End Parts.
