(** What two shapes with the same description have in common. *)
From Verif.Model Require Import Rdf.
From Verif.Spec Require Import IdentitySpec RdfSpec.
From Verif.Proofs Require Import BaseFacts ValueFacts IdentityFacts UrnFacts RdfFacts.

Lemma smithy_eq n : smithy n = IRI (Some (lit "https")) (Some (lit "awslabs.github.io")) (lit "/smithy/rdf-1.0") None (Some n).
Proof. reflexivity. Qed.
Lemma rdf_eq n : rdf n = IRI (Some (lit "http")) (Some (lit "www.w3.org")) (lit "/1999/02/22-rdf-syntax-ns") None (Some n).
Proof. reflexivity. Qed.
Lemma smithy_inj a b : smithy a = smithy b -> a = b.
Proof. rewrite !smithy_eq. congruence. Qed.
Lemma rdf_inj a b : rdf a = rdf b -> a = b.
Proof. rewrite !rdf_eq. congruence. Qed.
Lemma named_inj a b : valid_id a -> valid_id b -> named a = named b -> a = b.
Proof.
  intros Va Vb E. injection E as E. apply (f_equal iri_to_shape) in E.
  rewrite (proj2 (iri_to_shape_iff _ a)), (proj2 (iri_to_shape_iff _ b)) in E; [congruence| |].
  - rewrite (shape_to_iri_eq b Vb). auto.
  - rewrite (shape_to_iri_eq a Va). auto.
Qed.
Lemma simple_class_inj a b : lit (simple_class a) = lit (simple_class b) -> a = b.
Proof. destruct a, b; intros E; try reflexivity; discriminate E. Qed.

(** ** Properties by the last part of their name *)
Definition frag_is (f : str) (x : iri * obj) : bool :=
  match iri_fragment (fst x) with Some y => str_eqb y f | None => false end.
Definition sel (f : str) (ps : description) : list obj := map snd (filter (frag_is f) ps).
Lemma sel_In f ps o : In o (sel f ps) <-> exists p, In (p, o) ps /\ frag_is f (p, o) = true.
Proof.
  unfold sel. rewrite in_map_iff. split.
  - intros ([p x] & <- & I). apply filter_In in I. exists p. exact I.
  - intros (p & I). exists (p, o). split; [reflexivity|]. apply filter_In. exact I.
Qed.
Lemma sel_app f a b : sel f (a ++ b) = sel f a ++ sel f b.
Proof. unfold sel. rewrite filter_app, map_app. reflexivity. Qed.
Lemma same_sel f ps qs : same_props ps qs -> matched same_obj (sel f ps) (sel f qs).
Proof.
  intros [A B]. split; intros x I; apply sel_In in I as (p & I & F).
  - destruct (A _ _ I) as (y & I' & S). exists y. split; [|exact S]. apply sel_In. exists p. split; [exact I'|exact F].
  - destruct (B _ _ I) as (y & I' & S). exists y. split; [|exact S]. apply sel_In. exists p. split; [exact I'|exact F].
Qed.
Lemma sel_map_same {A} f (n : str) (h : A -> obj) l : str_eqb n f = true -> sel f (map (fun x => (smithy n, h x)) l) = map h l.
Proof.
  intros E. unfold sel. induction l as [|x l IH]; [reflexivity|]. cbn [map filter]. unfold frag_is at 1. cbn [fst].
  rewrite smithy_eq. cbn [iri_fragment]. rewrite E. cbn [map snd]. f_equal. exact IH.
Qed.
Lemma sel_map_other {A} f (n : str) (h : A -> obj) l : str_eqb n f = false -> sel f (map (fun x => (smithy n, h x)) l) = [].
Proof.
  intros E. unfold sel. induction l as [|x l IH]; [reflexivity|]. cbn [map filter]. unfold frag_is at 1. cbn [fst].
  rewrite smithy_eq. cbn [iri_fragment]. rewrite E. exact IH.
Qed.
Definition opt_list {A} (o : option A) : list A := match o with Some x => [x] | None => [] end.
Lemma sel_ids_same q l : sel (lit q) (ids_properties q l) = map named l.
Proof. apply sel_map_same, str_eqb_refl. Qed.
Lemma sel_ids_other f q l : str_eqb (lit q) f = false -> sel f (ids_properties q l) = [].
Proof. apply sel_map_other. Qed.
Lemma sel_id_same q o : sel (lit q) (id_properties q o) = map named (opt_list o).
Proof. destruct o as [i|]; [|reflexivity]. apply (sel_map_same (lit q) (lit q) named [i]), str_eqb_refl. Qed.
Lemma sel_id_other f q o : str_eqb (lit q) f = false -> sel f (id_properties q o) = [].
Proof. intros E. destruct o as [i|]; [|reflexivity]. exact (sel_map_other f (lit q) named [i] E). Qed.
Lemma sel_cons_same f p o ps : frag_is f (p, o) = true -> sel f ((p, o) :: ps) = o :: sel f ps.
Proof. intros E. unfold sel. cbn [filter]. rewrite E. reflexivity. Qed.
Lemma sel_cons_other f p o ps : frag_is f (p, o) = false -> sel f ((p, o) :: ps) = sel f ps.
Proof. intros E. unfold sel. cbn [filter]. rewrite E. reflexivity. Qed.

Section Keep.
  Variable f64_str : Z -> str.
  Notation value_obj := (value_obj f64_str).
  Notation kept_value := (kept_value f64_str).

  Lemma same_node ps qs : same_obj (ONode ps) (ONode qs) -> same_props ps qs.
  Proof. intros S. inversion S; subst. split; assumption. Qed.
  Lemma same_term_inv t o : same_obj (OTerm t) o -> o = OTerm t.
  Proof. intros S. inversion S. reflexivity. Qed.
  (** The properties of arrays and objects. *)
  Lemma sel_li_type o ps : sel (lit "type") ((a_type, o) :: ps) = o :: sel (lit "type") ps.
  Proof. reflexivity. Qed.
  Lemma sel_type_li {A} (h : A -> obj) l : sel (lit "type") (map (fun x => (rdf "li", h x)) l) = [].
  Proof. induction l as [|x l IH]; [reflexivity|]. exact IH. Qed.
  Lemma sel_li_li {A} (h : A -> obj) l : sel (lit "li") (map (fun x => (rdf "li", h x)) l) = map h l.
  Proof. induction l as [|x l IH]; [reflexivity|]. cbn [map]. rewrite sel_cons_same by reflexivity. f_equal. exact IH. Qed.
  Lemma sel_li_skip o ps : sel (lit "li") ((a_type, o) :: ps) = sel (lit "li") ps.
  Proof. reflexivity. Qed.
  Lemma matched_one {A} (R : A -> A -> Prop) x y : matched R [x] [y] -> R x y.
  Proof. intros [M _]. destruct (M x (or_introl eq_refl)) as (z & [<-|[]] & S). exact S. Qed.
  Lemma matched_map {A B} (h : A -> B) (R : B -> B -> Prop) (Q : A -> A -> Prop) l r :
    (forall x y, In x l -> In y r -> R (h x) (h y) -> Q x y) -> matched R (map h l) (map h r) -> matched Q l r.
  Proof.
    intros K [A1 A2]. split.
    - intros x I. destruct (A1 _ (in_map h _ _ I)) as (z & Iz & S). apply in_map_iff in Iz as (y & <- & Iy). eauto.
    - intros y I. destruct (A2 _ (in_map h _ _ I)) as (z & Iz & S). apply in_map_iff in Iz as (x & <- & Ix). eauto.
  Qed.

  Lemma same_pair (k k' : str) x y : same_obj (ONode [(smithy "key", text k); (smithy "value", x)]) (ONode [(smithy "key", text k'); (smithy "value", y)]) ->
    k = k' /\ same_obj x y.
  Proof.
    intros S. apply same_node in S. split.
    - apply (same_sel (lit "key")) in S. apply matched_one in S. inversion S. reflexivity.
    - apply (same_sel (lit "value")) in S. exact (matched_one _ _ _ S).
  Qed.
  Lemma value_obj_kept v : forall w, same_obj (value_obj v) (value_obj w) -> kept_value v w.
  Proof.
    induction v as [vs IH|vs IH|[n|b]|b|x|] using value_ind'; intros w S.
    - destruct w as [ws|ws|[m|c]|c|y|]; try (inversion S; fail).
      + apply same_node in S. apply (same_sel (lit "li")) in S. repeat rewrite sel_li_skip in S. repeat rewrite sel_li_li in S.
        rewrite Forall_forall in IH. apply (matched_map _ _ kept_value) in S; [|intros x y Ix _; apply (IH x Ix)].
        destruct S as [S1 S2]. now constructor.
      + exfalso. apply same_node in S. apply (same_sel (lit "type")) in S. repeat rewrite sel_li_type in S. repeat rewrite sel_type_li in S.
        apply matched_one in S. inversion S.
    - destruct w as [ws|ws|[m|c]|c|y|]; try (inversion S; fail).
      + exfalso. apply same_node in S. apply (same_sel (lit "type")) in S. repeat rewrite sel_li_type in S. repeat rewrite sel_type_li in S.
        apply matched_one in S. inversion S.
      + apply same_node in S. apply (same_sel (lit "li")) in S. repeat rewrite sel_li_skip in S. repeat rewrite sel_li_li in S.
        rewrite Forall_forall in IH.
        apply (matched_map _ _ (fun a b : str * value => fst a = fst b /\ kept_value (snd a) (snd b))) in S.
        * destruct S as [S1 S2]. constructor.
          -- intros k x I. destruct (S1 _ I) as ([k' y] & I' & E & K). cbn in E, K. subst k'. eauto.
          -- intros k y I. destruct (S2 _ I) as ([k' x] & I' & E & K). cbn in E, K. subst k'. eauto.
        * intros [k x] [k' y] Ix _ E. apply same_pair in E as [-> E]. split; [reflexivity|]. exact (IH _ Ix _ E).
    - apply same_term_inv in S. destruct w as [ws|ws|[m|c]|c|y|]; try discriminate S.
      injection S as S. apply int_to_str_inj in S. subst. constructor.
    - apply same_term_inv in S. destruct w as [ws|ws|[m|c]|c|y|]; try discriminate S.
      injection S as S. constructor. congruence.
    - apply same_term_inv in S. destruct w as [ws|ws|[m|c]|c|y|]; try discriminate S.
      injection S as S. destruct b, c; try discriminate S; constructor.
    - apply same_term_inv in S. destruct w as [ws|ws|[m|c]|c|y|]; try discriminate S.
      injection S as S. subst. constructor.
    - apply same_term_inv in S. destruct w as [ws|ws|[m|c]|c|y|]; try discriminate S. constructor.
  Qed.

  Lemma trait_kept a b : valid_id (fst a) -> valid_id (fst b) -> same_obj (trait_obj f64_str a) (trait_obj f64_str b) ->
    fst a = fst b /\ opt_rel kept_value (snd a) (snd b).
  Proof.
    intros Va Vb S. destruct a as [i v], b as [j w]. cbn [fst snd] in *. unfold trait_obj in S. cbn [fst snd] in S.
    apply same_node in S. split.
    - apply (same_sel (lit "trait")) in S. apply named_inj; [assumption..|].
      assert (Q : matched same_obj [named i] [named j]) by (destruct v, w; exact S).
      apply matched_one in Q. apply same_term_inv in Q. symmetry. exact Q.
    - apply (same_sel (lit "value")) in S. destruct v as [v|], w as [w|].
      + assert (Q : matched same_obj [value_obj v] [value_obj w]) by exact S.
        apply matched_one in Q. cbn. apply value_obj_kept, Q.
      + exfalso. destruct S as [S _]. destruct (S (value_obj v)) as (y & [] & _). now left.
      + exfalso. destruct S as [_ S]. destruct (S (value_obj w)) as (y & [] & _). now left.
      + exact I.
  Qed.
  Lemma traits_kept ts us : traits_named ts -> traits_named us ->
    matched same_obj (map (trait_obj f64_str) ts) (map (trait_obj f64_str) us) -> kept_traits f64_str ts us.
  Proof. intros Va Vb. apply matched_map. intros x y Ix Iy. apply trait_kept; auto. Qed.
  Lemma sel_apply ts : sel (lit "apply") (trait_properties f64_str ts) = map (trait_obj f64_str) ts.
  Proof. apply sel_map_same. reflexivity. Qed.
  Lemma sel_trait_other f ts : str_eqb (lit "apply") f = false -> sel f (trait_properties f64_str ts) = [].
  Proof. apply sel_map_other. Qed.

  Lemma member_kept a b : member_valid a -> member_valid b ->
    same_obj (snd (member_property f64_str a)) (snd (member_property f64_str b)) -> kept_member f64_str a b.
  Proof.
    intros [Ta Na] [Tb Nb] S. unfold member_property in S. cbn [snd] in S. apply same_node in S.
    split; [|split].
    - apply (same_sel (lit "name")) in S.
      change (matched same_obj (text (ms_id a) :: sel (lit "name") (trait_properties f64_str (ms_traits a)))
                               (text (ms_id b) :: sel (lit "name") (trait_properties f64_str (ms_traits b)))) in S.
      rewrite (sel_trait_other _ (ms_traits a)) in S by reflexivity.
      rewrite (sel_trait_other _ (ms_traits b)) in S by reflexivity.
      apply matched_one in S. inversion S. reflexivity.
    - apply (same_sel (lit "type")) in S.
      change (matched same_obj (named (ms_target a) :: sel (lit "type") (trait_properties f64_str (ms_traits a)))
                               (named (ms_target b) :: sel (lit "type") (trait_properties f64_str (ms_traits b)))) in S.
      rewrite (sel_trait_other _ (ms_traits a)) in S by reflexivity.
      rewrite (sel_trait_other _ (ms_traits b)) in S by reflexivity.
      apply matched_one in S. apply same_term_inv in S. apply named_inj; [assumption..|symmetry; exact S].
    - apply (same_sel (lit "apply")) in S.
      change (matched same_obj (sel (lit "apply") (trait_properties f64_str (ms_traits a)))
                               (sel (lit "apply") (trait_properties f64_str (ms_traits b)))) in S.
      rewrite (sel_apply (ms_traits a)), (sel_apply (ms_traits b)) in S. apply traits_kept; assumption.
  Qed.
  Lemma members_kept l r : (forall m, In m l -> member_valid m) -> (forall m, In m r -> member_valid m) ->
    matched same_obj (map (fun m => snd (member_property f64_str m)) l) (map (fun m => snd (member_property f64_str m)) r) ->
    matched (kept_member f64_str) l r.
  Proof. intros Vl Vr. apply matched_map. intros x y Ix Iy. apply member_kept; auto. Qed.
  Lemma sel_member l : sel (lit "member") (map (member_property f64_str) l) = map (fun m => snd (member_property f64_str m)) l.
  Proof. exact (sel_map_same (lit "member") (lit "member") (fun m => snd (member_property f64_str m)) l eq_refl). Qed.
  Lemma sel_member_other f l : str_eqb (lit "member") f = false -> sel f (map (member_property f64_str) l) = [].
  Proof. exact (sel_map_other f (lit "member") (fun m => snd (member_property f64_str m)) l). Qed.

  Lemma ids_kept l r : ids_valid l -> ids_valid r -> matched same_obj (map named l) (map named r) -> kept_ids l r.
  Proof.
    intros Vl Vr. apply matched_map. intros x y Ix Iy S. apply same_term_inv in S. symmetry. apply named_inj; auto.
  Qed.
  Lemma id_kept o u : id_valid o -> id_valid u -> matched same_obj (map named (opt_list o)) (map named (opt_list u)) -> o = u.
  Proof.
    intros Vo Vu M. destruct o as [i|], u as [j|]; try reflexivity.
    - apply matched_one in M. apply same_term_inv in M. f_equal. symmetry. apply named_inj; auto.
    - exfalso. destruct M as [M _]. destruct (M (named i)) as (y & [] & _). now left.
    - exfalso. destruct M as [_ M]. destruct (M (named j)) as (y & [] & _). now left.
  Qed.

  (** Identifiers. *)
  Lemma numbered_In l : forall i n t, In (n, t) l -> exists j, In (rdf (lit "_" ++ int_to_str (Z.of_nat j)), ONode [(smithy "key", text n); (smithy "value", named t)]) (numbered i l).
  Proof.
    induction l as [|[n0 t0] l IH]; intros i n t I; [destruct I|]. destruct I as [E|I].
    - injection E as <- <-. exists i. now left.
    - destruct (IH (S i) _ _ I) as (j & J). exists j. now right.
  Qed.
  Lemma In_numbered l : forall i p o, In (p, o) (numbered i l) ->
    exists n t, In (n, t) l /\ o = ONode [(smithy "key", text n); (smithy "value", named t)].
  Proof.
    induction l as [|[n0 t0] l IH]; intros i p o I; [destruct I|]. destruct I as [E|I].
    - injection E as _ <-. exists n0, t0. split; [now left|reflexivity].
    - destruct (IH _ _ _ I) as (n & t & J & ->). exists n, t. split; [now right|reflexivity].
  Qed.
  Lemma under_not_type s o : (rdf (lit "_" ++ s), o) <> (a_type, rdf_class "Bag").
  Proof. intros E. discriminate E. Qed.
  Lemma identifiers_kept l r :
    (forall e, In e l -> valid_id (snd e)) -> (forall e, In e r -> valid_id (snd e)) ->
    matched same_obj (sel (lit "identifiers") (identifiers_properties l)) (sel (lit "identifiers") (identifiers_properties r)) ->
    matched eq l r.
  Proof.
    intros Vl Vr M.
    assert (K : forall l i, l <> [] -> i = (smithy "identifiers", ONode ((a_type, rdf_class "Bag") :: numbered 1 l)) -> identifiers_properties l = [i]).
    { intros l0 i N ->. destruct l0; [congruence|reflexivity]. }
    assert (E : l = [] <-> r = []).
    { split; intros ->.
      - destruct r as [|e r]; [reflexivity|]. destruct M as [_ M]. rewrite (K (e :: r) _ ltac:(discriminate) eq_refl) in M.
        rewrite sel_cons_same in M by reflexivity. destruct (M _ (or_introl eq_refl)) as (x & [] & _).
      - destruct l as [|e l]; [reflexivity|]. destruct M as [M _]. rewrite (K (e :: l) _ ltac:(discriminate) eq_refl) in M.
        rewrite sel_cons_same in M by reflexivity. destruct (M _ (or_introl eq_refl)) as (x & [] & _). }
    destruct l as [|e l0]; [rewrite (proj1 E eq_refl); split; intros x []|].
    destruct r as [|e' r0]; [discriminate (proj2 E eq_refl)|]. clear E.
    set (l := e :: l0) in *. set (r := e' :: r0) in *.
    rewrite (K l _ ltac:(discriminate) eq_refl), (K r _ ltac:(discriminate) eq_refl) in M.
    repeat rewrite sel_cons_same in M by reflexivity. apply matched_one, same_node in M. destruct M as [M1 M2]. split.
    - intros [n t] I. exists (n, t). split; [|reflexivity]. destruct (numbered_In l 1 n t I) as (j & J).
      destruct (M1 _ _ (or_intror J)) as (o & [X|X] & S); [symmetry in X; now apply under_not_type in X|].
      apply In_numbered in X as (n' & t' & I' & ->). apply same_pair in S as [-> S]. apply same_term_inv in S.
      apply named_inj in S; [subst; exact I'|apply (Vr _ I')|apply (Vl _ I)].
    - intros [n t] I. exists (n, t). split; [|reflexivity]. destruct (numbered_In r 1 n t I) as (j & J).
      destruct (M2 _ _ (or_intror J)) as (o & [X|X] & S); [symmetry in X; now apply under_not_type in X|].
      apply In_numbered in X as (n' & t' & I' & ->). apply same_pair in S as [-> S]. apply same_term_inv in S.
      apply named_inj in S; [subst; exact I'|apply (Vr _ I)|apply (Vl _ I')].
  Qed.
  Lemma sel_identifiers_other f l : str_eqb (lit "identifiers") f = false -> sel f (identifiers_properties l) = [].
  Proof.
    intros E. destruct l as [|e l]; [reflexivity|]. unfold identifiers_properties. rewrite sel_cons_other; [reflexivity|].
    unfold frag_is. cbn [fst]. rewrite smithy_eq. exact E.
  Qed.

  (** ** Whole shapes *)
  Lemma sel_type_body b : sel (lit "type") (body_properties f64_str b) = [].
  Proof.
    destruct b; cbn [body_properties]; try reflexivity.
    - rewrite <- (map_map snd (member_property f64_str)). apply sel_member_other. reflexivity.
    - rewrite <- (map_map snd (member_property f64_str)). apply sel_member_other. reflexivity.
    - rewrite sel_cons_other by reflexivity. rewrite sel_app by reflexivity. repeat rewrite sel_ids_other by reflexivity. reflexivity.
    - repeat rewrite sel_app by reflexivity. repeat rewrite sel_id_other by reflexivity. rewrite sel_ids_other by reflexivity. reflexivity.
    - repeat rewrite sel_app by reflexivity. repeat rewrite sel_id_other by reflexivity. repeat rewrite sel_ids_other by reflexivity. rewrite sel_identifiers_other by reflexivity. reflexivity.
  Qed.
  Lemma sel_apply_body b : sel (lit "apply") (body_properties f64_str b) = [].
  Proof.
    destruct b; cbn [body_properties]; try reflexivity.
    - rewrite <- (map_map snd (member_property f64_str)). apply sel_member_other. reflexivity.
    - rewrite <- (map_map snd (member_property f64_str)). apply sel_member_other. reflexivity.
    - rewrite sel_cons_other by reflexivity. rewrite sel_app by reflexivity. repeat rewrite sel_ids_other by reflexivity. reflexivity.
    - repeat rewrite sel_app by reflexivity. repeat rewrite sel_id_other by reflexivity. rewrite sel_ids_other by reflexivity. reflexivity.
    - repeat rewrite sel_app by reflexivity. repeat rewrite sel_id_other by reflexivity. repeat rewrite sel_ids_other by reflexivity. rewrite sel_identifiers_other by reflexivity. reflexivity.
  Qed.
  Lemma class_inj a b : same_obj (class a) (class b) -> lit a = lit b.
  Proof. intros S. apply same_term_inv in S. injection S as S. symmetry. exact S. Qed.
  Lemma sel_body_part f s : str_eqb (lit "type") f = false -> str_eqb (lit "apply") f = false ->
    sel f (shape_description f64_str s) = sel f (body_properties f64_str (ts_body s)).
  Proof.
    intros E1 E2. unfold shape_description. rewrite sel_cons_other.
    - rewrite sel_app, sel_trait_other by exact E2. apply app_nil_r.
    - unfold frag_is. cbn [fst]. unfold a_type. rewrite rdf_eq. exact E1.
  Qed.
  Ltac pick f :=
    match goal with S : same_props _ _ |- _ =>
      let M := fresh "M" in assert (M := same_sel (lit f) _ _ S);
      repeat rewrite sel_body_part in M by reflexivity; cbn [ts_body body_properties] in M;
      repeat rewrite sel_app in M;
      repeat first [rewrite sel_id_other in M by reflexivity | rewrite sel_ids_other in M by reflexivity
                    | rewrite sel_identifiers_other in M by reflexivity | rewrite sel_id_same in M | rewrite sel_ids_same in M];
      cbn [app] in M; repeat rewrite app_nil_r in M
    end.
  Lemma shape_kept a b : shape_valid a -> shape_valid b -> is_resolved a = true -> is_resolved b = true -> ts_id a = ts_id b ->
    same_props (shape_description f64_str a) (shape_description f64_str b) -> kept_shape f64_str a b.
  Proof.
    intros (_ & Ta & Ba) (_ & Tb & Bb) Ra Rb I S. split; [exact I|]. split.
    - assert (C := same_sel (lit "type") _ _ S). unfold shape_description in C. repeat rewrite sel_li_type in C. repeat rewrite sel_app in C. repeat rewrite sel_type_body in C.
      repeat rewrite sel_trait_other in C by reflexivity. cbn [app] in C. apply matched_one, class_inj in C.
      destruct a as [ia ta ba], b as [ib tb bb]. cbn [ts_id ts_body ts_traits] in *. unfold is_resolved in Ra, Rb. cbn in Ra, Rb.
      destruct ba as [sa|ma|ma|ka va|ma|ma|xa|xa|xa|], bb as [sb|mb|mb|kb vb|mb|mb|xb|xb|xb|];
        try discriminate Ra; try discriminate Rb; cbn [kind_class] in C;
        try (exfalso; try destruct sa; try destruct sb; discriminate C); cbn [body_valid] in Ba, Bb.
      + apply simple_class_inj in C. subst. constructor.
      + constructor. pick "member". change [member_property f64_str ma] with (map (member_property f64_str) [ma]) in M.
        change [member_property f64_str mb] with (map (member_property f64_str) [mb]) in M. repeat rewrite sel_member in M.
        apply matched_one in M. apply member_kept; assumption.
      + constructor. pick "member". change [member_property f64_str ma] with (map (member_property f64_str) [ma]) in M.
        change [member_property f64_str mb] with (map (member_property f64_str) [mb]) in M. repeat rewrite sel_member in M.
        apply matched_one in M. apply member_kept; assumption.
      + constructor. pick "member".
        change [member_property f64_str ka; member_property f64_str va] with (map (member_property f64_str) [ka; va]) in M.
        change [member_property f64_str kb; member_property f64_str vb] with (map (member_property f64_str) [kb; vb]) in M.
        repeat rewrite sel_member in M. apply members_kept; [| |exact M]; intros m [<-|[<-|[]]]; tauto.
      + constructor. pick "member". rewrite <- !(map_map snd (member_property f64_str)) in M. repeat rewrite sel_member in M.
        apply members_kept; [| |exact M]; intros m Im; apply in_map_iff in Im as (e & <- & Ie); auto.
      + constructor. pick "member". rewrite <- !(map_map snd (member_property f64_str)) in M. repeat rewrite sel_member in M.
        apply members_kept; [| |exact M]; intros m Im; apply in_map_iff in Im as (e & <- & Ie); auto.
      + destruct Ba as (A1 & A2), Bb as (B1 & B2). constructor.
        * pick "version". repeat rewrite sel_cons_same in M by reflexivity. repeat rewrite sel_app in M.
          repeat rewrite sel_ids_other in M by reflexivity. apply matched_one in M. inversion M. reflexivity.
        * pick "operation". repeat rewrite sel_cons_other in M by reflexivity. repeat rewrite sel_app in M.
          rewrite !(sel_ids_other _ "resource") in M by reflexivity. repeat rewrite sel_ids_same in M. repeat rewrite app_nil_r in M. apply ids_kept; assumption.
        * pick "resource". repeat rewrite sel_cons_other in M by reflexivity. repeat rewrite sel_app in M.
          rewrite !(sel_ids_other _ "operation") in M by reflexivity. repeat rewrite sel_ids_same in M. apply ids_kept; assumption.
      + destruct Ba as (A1 & A2 & A3), Bb as (B1 & B2 & B3). constructor.
        * pick "input". apply id_kept; assumption.
        * pick "output". apply id_kept; assumption.
        * pick "error". apply ids_kept; assumption.
      + destruct Ba as (A0 & A1 & A2 & A3 & A4 & A5 & A6 & A7 & A8 & A9), Bb as (B0 & B1 & B2 & B3 & B4 & B5 & B6 & B7 & B8 & B9). constructor.
        * pick "identifiers". apply identifiers_kept; assumption.
        * pick "create". apply id_kept; assumption.
        * pick "put". apply id_kept; assumption.
        * pick "read". apply id_kept; assumption.
        * pick "update". apply id_kept; assumption.
        * pick "delete". apply id_kept; assumption.
        * pick "list". apply id_kept; assumption.
        * pick "operation". apply ids_kept; assumption.
        * pick "collectionOperation". apply ids_kept; assumption.
        * pick "resource". apply ids_kept; assumption.
    - assert (C := same_sel (lit "apply") _ _ S). unfold shape_description in C. repeat rewrite sel_cons_other in C by reflexivity.
      repeat rewrite sel_app in C. repeat rewrite sel_apply_body in C. repeat rewrite sel_apply in C. apply traits_kept; assumption.
  Qed.
End Keep.
