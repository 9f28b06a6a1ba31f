(** Facts about the GraphML writer. *)
From Verif.Model Require Import GraphML.
From Verif.Spec Require Import GraphMLSpec IdentitySpec VisitorSpec.
From Verif.Proofs Require Import BaseFacts IdentityFacts VisitorFacts.

Arguments Z.add : simpl never.
Arguments Z.modulo : simpl never.
Arguments Z.of_nat : simpl never.
Arguments nat_to_str : simpl never.

(* ------------------------------------------------------------ text of a drawing *)
Definition node_text (id : shape_id) (type : str) (version : option str) : str :=
  (lit "        <node id=""" ++ sid_display id ++ lit """>") ++ [eol] ++
  (lit "            <data key=""type"">" ++ type ++ lit "</data>") ++ [eol] ++
  match version with
  | Some v => (lit "            <data key=""version"">" ++ v ++ lit "</data>") ++ [eol]
  | None => []
  end ++
  lit "        </node>" ++ [eol].
Definition edge_text (n : nat) (s t : shape_id) (key text : str) : str :=
  edge_line (edge_name n) s t ++ [eol] ++
  (lit "            <data key=""" ++ key ++ lit """>" ++ text ++ lit "</data>") ++ [eol] ++
  lit "        </edge>" ++ [eol].
Fixpoint drawn_text (n : nat) (l : list drawn) : str :=
  match l with
  | [] => []
  | DNode id ty v :: l' => node_text id ty v ++ drawn_text n l'
  | DEdge s t k x :: l' => edge_text n s t k x ++ drawn_text (S n) l'
  end.
Definition E (l : list drawn) : nat := length (edges l).
Lemma E_app a b : E (a ++ b) = E a + E b.
Proof. unfold E, edges. rewrite filter_app, app_length. reflexivity. Qed.
Lemma drawn_text_app a : forall n b, drawn_text n (a ++ b) = drawn_text n a ++ drawn_text (n + E a) b.
Proof.
  induction a as [|[id ty v|s t k x] a IH]; intros n b.
  - cbn. rewrite Nat.add_0_r. reflexivity.
  - cbn [app drawn_text]. rewrite IH, app_assoc. reflexivity.
  - cbn [app drawn_text]. rewrite IH, app_assoc. change (E (DEdge s t k x :: a)) with (S (E a)).
    rewrite Nat.add_succ_r. reflexivity.
Qed.

Section Draws.
  Variable ck : bool.
  Definition draws (w : gwalk) (l : list drawn) : Prop :=
    forall n t,
      ((ck = false \/ Z.of_nat (n + E l) <= 65535)%Z ->
       w (GState (Z.of_nat n mod 65536) t) = (GState (Z.of_nat (n + E l) mod 65536) (t ++ drawn_text n l), None))
      /\ (ck = true -> (Z.of_nat n <= 65535)%Z -> (65535 < Z.of_nat (n + E l))%Z -> snd (w (GState (Z.of_nat n mod 65536) t)) = Some Panicked).

  Lemma draws_done : draws done [].
  Proof.
    intros n t. split.
    - intros _. cbn. rewrite Nat.add_0_r, app_nil_r. reflexivity.
    - cbn. lia.
  Qed.
  Lemma draws_then a b la lb : draws a la -> draws b lb -> draws (then_ a b) (la ++ lb).
  Proof.
    intros A B n t. rewrite E_app. split.
    - intros C. unfold then_. destruct (A n t) as [-> _]; [|destruct C as [C|C]; [auto|right; lia]].
      destruct (B (n + E la) (t ++ drawn_text n la)) as [-> _]; [|destruct C as [C|C]; [auto|right; lia]].
      rewrite drawn_text_app, app_assoc, Nat.add_assoc. reflexivity.
    - intros C N O. unfold then_. destruct (Z_le_gt_dec (Z.of_nat (n + E la)) 65535) as [L|L].
      + destruct (A n t) as [-> _]; [|auto]. apply (B (n + E la)); auto. lia.
      + destruct (A n t) as [_ P]. specialize (P C N ltac:(lia)).
        destruct (a (GState (Z.of_nat n mod 65536) t)) as [s' o]. cbn [snd] in P. subst o. reflexivity.
  Qed.
  Lemma draws_each {A} (f : A -> gwalk) (g : A -> list drawn) l :
    (forall x, draws (f x) (g x)) -> draws (for_each f l) (flat_map g l).
  Proof. intros F. induction l as [|x l IH]; [apply draws_done|]. apply draws_then; auto. Qed.
  Lemma draws_each1 {A} (f : A -> gwalk) (g : A -> drawn) l :
    (forall x, draws (f x) [g x]) -> draws (for_each f l) (map g l).
  Proof. intros F. induction l as [|x l IH]; [apply draws_done|]. exact (draws_then _ _ [g x] _ (F x) IH). Qed.
  Lemma put_app a s : put a s = (GState (g_count s) (g_text s ++ a ++ [eol]), None).
  Proof. reflexivity. Qed.

  Lemma draws_node id ty : draws (node id ty) [DNode id ty None].
  Proof.
    intros n t. split; [|cbn; lia]. intros _. change (E [DNode id ty None]) with 0. rewrite Nat.add_0_r.
    unfold node, then_. rewrite !put_app. cbn [g_count g_text]. f_equal. f_equal.
    cbn [drawn_text]. unfold node_text. rewrite app_nil_r, <- !app_assoc. reflexivity.
  Qed.
  Lemma draws_service_node id v :
    draws (then_ (put (lit "        <node id=""" ++ sid_display id ++ lit """>"))
      (then_ (put (lit "            <data key=""type"">" ++ lit "service" ++ lit "</data>"))
      (then_ (put (lit "            <data key=""version"">" ++ v ++ lit "</data>"))
             (put (lit "        </node>"))))) [DNode id (lit "service") (Some v)].
  Proof.
    intros n t. split; [|cbn; lia]. intros _. change (E _) with 0. rewrite Nat.add_0_r.
    unfold then_. rewrite !put_app. cbn [g_count g_text]. f_equal. f_equal.
    cbn [drawn_text]. unfold node_text. rewrite app_nil_r, <- !app_assoc. reflexivity.
  Qed.

  Lemma mod_succ n : ((Z.of_nat n mod 65536 + 1) mod 65536 = Z.of_nat (n + 1) mod 65536)%Z.
  Proof. rewrite Zplus_mod_idemp_l. f_equal. lia. Qed.
  Lemma draws_edge s t key text (line : str) :
    line = lit "            <data key=""" ++ key ++ lit """>" ++ text ++ lit "</data>" ->
    draws (with_edge_id ck (fun edge_id =>
      then_ (put (edge_line edge_id s t)) (then_ (put line) (put (lit "        </edge>"))))) [DEdge s t key text].
  Proof.
    intros L n x. change (E [DEdge s t key text]) with 1. unfold with_edge_id. cbn [g_count g_text]. split.
    - intros C.
      assert (ck && (65535 <=? Z.of_nat n mod 65536)%Z = false) as ->.
      { destruct C as [->|C]; [reflexivity|]. rewrite Z.mod_small by lia.
        destruct ck; [|reflexivity]. apply Z.leb_gt. lia. }
      unfold then_. rewrite !put_app. cbn [g_count g_text]. rewrite mod_succ. f_equal. f_equal.
      cbn [drawn_text]. unfold edge_text, edge_name. rewrite L, app_nil_r, <- !app_assoc. reflexivity.
    - intros -> N O. rewrite Z.mod_small by lia.
      assert ((65535 <=? Z.of_nat n)%Z = true) as -> by (apply Z.leb_le; lia). reflexivity.
  Qed.
  Lemma draws_member s n t : draws (member_edge ck s n t) [DEdge s t (lit "member") n].
  Proof. apply draws_edge. rewrite !app_assoc. reflexivity. Qed.
  Lemma draws_traits id ts :
    draws (trait_edges ck id ts) (map (fun t => DEdge id (fst t) (lit "trait") (lit "true")) ts).
  Proof.
    unfold trait_edges. rewrite <- (map_map fst (fun i => DEdge id i (lit "trait") (lit "true"))).
    apply draws_each1. intros i. apply draws_edge. reflexivity.
  Qed.
  Lemma draws_targets id n l :
    draws (for_each (member_edge ck id (lit n)) l) (map (fun t => DEdge id (snd t) (lit "member") (fst t)) (named n l)).
  Proof. unfold named. rewrite map_map. cbn [fst snd]. apply draws_each1. intros i. apply draws_member. Qed.
  Lemma draws_maybe id n o :
    draws (if_some o (member_edge ck id (lit n)))
      (map (fun t => DEdge id (snd t) (lit "member") (fst t)) (named n (maybe o))).
  Proof. destruct o as [t|]; [apply draws_member|apply draws_done]. Qed.
  Lemma draws_members id (ms : members) :
    draws (for_each (fun m => member_edge ck id (ms_id m) (ms_target m)) (hm_values ms))
      (map (fun t => DEdge id (snd t) (lit "member") (fst t)) (map (fun e => (ms_id (snd e), ms_target (snd e))) ms)).
  Proof.
    rewrite map_map. cbn [fst snd]. unfold hm_values.
    rewrite <- (map_map snd (fun m => DEdge id (ms_target m) (lit "member") (ms_id m))).
    apply draws_each1. intros m. apply draws_member.
  Qed.

  Lemma then_assoc (a b c : gwalk) s : then_ (then_ a b) c s = then_ a (then_ b c) s.
  Proof. unfold then_. destruct (a s) as [s' [e|]]; reflexivity. Qed.
  Lemma draws_ext a b l : (forall s, a s = b s) -> draws a l -> draws b l.
  Proof. intros X A n t. rewrite <- X. apply A. Qed.

  Ltac drawn_parts :=
    rewrite ?map_app;
    repeat match goal with
    | |- draws (then_ _ _) (_ ++ _) => apply draws_then
    | |- draws (trait_edges _ _ _) _ => apply draws_traits
    | |- draws (for_each (fun m => _) _) _ => apply draws_members
    | |- draws (for_each (member_edge _ _ _) _) _ => apply draws_targets
    | |- draws (if_some _ _) _ => apply draws_maybe
    end.

  Lemma draws_call s : draws (graphml_answer ck (shape_call s)) (shape_drawing s).
  Proof.
    unfold shape_call, shape_drawing. destruct (ts_body s) as [b|m|m|k v|ms|ms|b|b|b|] eqn:B; cbn [graphml_answer].
    - replace (type_name (KSimple b)) with (simple_display b) by (destruct b; reflexivity).
      cbn [targets map version_of]. rewrite app_nil_r. apply (draws_then _ _ [_]); [apply draws_node|apply draws_traits].
    - apply (draws_then _ _ [_]); [apply draws_node|]. apply draws_then; [apply draws_traits|apply draws_member].
    - apply (draws_then _ _ [_]); [apply draws_node|]. apply draws_then; [apply draws_traits|apply draws_member].
    - apply (draws_then _ _ [_]); [apply draws_node|]. apply draws_then; [apply draws_traits|].
      apply (draws_then _ _ [_] [_]); apply draws_member.
    - apply (draws_then _ _ [_]); [apply draws_node|]. cbn [targets]. drawn_parts.
    - apply (draws_then _ _ [_]); [apply draws_node|]. cbn [targets]. drawn_parts.
    - apply draws_ext with
        (then_ (then_ (put (lit "        <node id=""" ++ sid_display (ts_id s) ++ lit """>"))
          (then_ (put (lit "            <data key=""type"">" ++ lit "service" ++ lit "</data>"))
          (then_ (put (lit "            <data key=""version"">" ++ sv_version b ++ lit "</data>"))
                 (put (lit "        </node>")))))
          (then_ (trait_edges ck (ts_id s) (ts_traits s))
          (then_ (for_each (member_edge ck (ts_id s) (lit "operations")) (sv_operations b))
                 (for_each (member_edge ck (ts_id s) (lit "resources")) (sv_resources b))))).
      { intros x. rewrite !then_assoc. apply then_ext; [reflexivity|]. intros y.
        rewrite !then_assoc. apply then_ext; [reflexivity|]. intros z. rewrite !then_assoc. reflexivity. }
      apply (draws_then _ _ [_]); [apply draws_service_node|]. cbn [targets]. drawn_parts.
    - apply (draws_then _ _ [_]); [apply draws_node|]. cbn [targets]. drawn_parts.
    - apply (draws_then _ _ [_]); [apply draws_node|]. cbn [targets]. drawn_parts.
    - apply draws_done.
  Qed.

  Lemma run_draws (calls : list call) (g : call -> list drawn) :
    Forall (fun c => draws (graphml_answer ck c) (g c)) calls ->
    draws (run (graphml_visitor ck) calls) (flat_map g calls).
  Proof.
    induction 1 as [|c l C L IH]; [apply draws_done|].
    apply draws_ext with (then_ (graphml_answer ck c) (run (graphml_visitor ck) l)); [reflexivity|].
    apply draws_then; auto.
  Qed.
End Draws.

(* ------------------------------------------------------------ the whole text *)
Lemma for_each_put lines : forall c t,
  for_each put lines (GState c t) = (GState c (t ++ flat_map (fun l => l ++ [eol]) lines), None).
Proof.
  induction lines as [|l lines IH]; intros c t.
  - cbn. rewrite app_nil_r. reflexivity.
  - change (for_each put (l :: lines)) with (then_ (put l) (for_each put lines)). unfold then_ at 1.
    rewrite put_app. cbn [g_count g_text]. rewrite IH. cbn [flat_map]. rewrite <- !app_assoc. reflexivity.
Qed.
Lemma draws_walk ck m : draws ck (walk_model m (graphml_visitor ck)) (drawing m).
Proof.
  apply draws_ext with (run (graphml_visitor ck) (expected_calls false m)).
  { intros s. symmetry. apply walk_model_run. }
  unfold expected_calls.
  apply draws_ext with (then_ (run (graphml_visitor ck) (map (fun kv => CMetadata (fst kv) (snd kv)) (m_metadata m)))
     (run (graphml_visitor ck) (flat_map (fun e => [shape_call (snd e)]) (m_shapes m)))).
  { intros s. symmetry. apply run_app. }
  apply (draws_then _ _ _ [] _).
  - induction (m_metadata m) as [|kv l IH]; [apply draws_done|].
    apply (draws_then _ _ _ [] []); [apply draws_done|exact IH].
  - unfold drawing. induction (m_shapes m) as [|e l IH]; [apply draws_done|].
    cbn [flat_map app]. apply (draws_then ck (answer (graphml_visitor ck) (shape_call (snd e)))); [apply draws_call|exact IH].
Qed.

Definition graphml_text (m : model) : str :=
  flat_map (fun l => l ++ [eol]) (graphml_head m) ++ drawn_text 0 (drawing m)
  ++ lit "    </graph>" ++ [eol] ++ lit "</graphml>" ++ [eol].
Lemma graphml_write_ok ck m :
  ck = false \/ (Z.of_nat (length (edges (drawing m))) <= 65535)%Z -> graphml_write ck m = Ok (graphml_text m).
Proof.
  intros C. unfold graphml_write. unfold then_ at 1. rewrite for_each_put. cbn [app].
  unfold then_ at 1. destruct (draws_walk ck m 0 (flat_map (fun l => l ++ [eol]) (graphml_head m))) as [W _].
  change (Z.of_nat 0 mod 65536)%Z with 0%Z in W. rewrite (W C). unfold then_. rewrite !put_app. cbn [g_count g_text].
  f_equal. unfold graphml_text. rewrite <- !app_assoc. reflexivity.
Qed.
Lemma graphml_write_panic m :
  (65535 < Z.of_nat (length (edges (drawing m))))%Z -> graphml_write true m = Panic.
Proof.
  intros C. unfold graphml_write. unfold then_ at 1. rewrite for_each_put. cbn [app].
  unfold then_ at 1. destruct (draws_walk true m 0 (flat_map (fun l => l ++ [eol]) (graphml_head m))) as [_ W].
  change (Z.of_nat 0 mod 65536)%Z with 0%Z in W. specialize (W eq_refl ltac:(lia) C).
  destruct (walk_model m (graphml_visitor true) _) as [s o]. cbn [snd] in W. subst o. reflexivity.
Qed.

(* ------------------------------------------------------------ spelling *)
Definition plain_ch (c : ascii) : bool := attr_ch c && negb (Ascii.eqb c "]") && negb (blank_ch c).
Definition id_ch (c : ascii) : bool := is_alnum c || Ascii.eqb c "_" || Ascii.eqb c "." || Ascii.eqb c "#" || Ascii.eqb c "$".
Lemma id_plain c : id_ch c = true -> plain_ch c = true.
Proof. destruct c as [[] [] [] [] [] [] [] []]; vm_compute; intros; congruence. Qed.
Lemma forallb_imp {A} (p q : A -> bool) l : (forall x, p x = true -> q x = true) -> forallb p l = true -> forallb q l = true.
Proof. intros I. rewrite !forallb_forall. auto. Qed.
Lemma plain_attr s : forallb plain_ch s = true -> forallb attr_ch s = true.
Proof. apply forallb_imp. intros c. unfold plain_ch. rewrite !andb_true_iff. tauto. Qed.
Lemma plain_normal s : forallb plain_ch s = true -> normalised s = s.
Proof.
  induction s as [|c s IH]; cbn [forallb]; [reflexivity|]. rewrite andb_true_iff. intros [C S].
  unfold normalised in *. cbn [map]. rewrite (IH S).
  unfold plain_ch in C. rewrite !andb_true_iff in C. destruct C as [_ C]. rewrite negb_true_iff in C. rewrite C. reflexivity.
Qed.
Lemma plain_data s : forallb plain_ch s = true -> char_data s.
Proof.
  intros P. split.
  - revert P. apply forallb_imp. intros c. unfold plain_ch, attr_ch. rewrite !andb_true_iff. tauto.
  - intros (a & b & ->). rewrite !forallb_app, !andb_true_iff in P. destruct P as [_ [P _]]. discriminate.
Qed.
Lemma identifier_ids s : is_identifier s -> forallb id_ch s = true.
Proof.
  intros (us & c & rest & -> & U & C & R). rewrite forallb_app, andb_true_iff. split.
  - apply forallb_forall. intros x X. rewrite Forall_forall in U. rewrite (U x X). reflexivity.
  - cbn [forallb]. rewrite andb_true_iff. split.
    + unfold id_ch, is_alnum. rewrite C. reflexivity.
    + apply forallb_forall. intros x X. rewrite Forall_forall in R. unfold id_ch, is_alnum.
      destruct (R x X) as [->|[->| ->]]; rewrite ?orb_true_r; reflexivity.
Qed.
Lemma join_ids l : Forall is_identifier l -> forallb id_ch (join ["."%char] l) = true.
Proof.
  induction 1 as [|x l X L IH]; [reflexivity|]. destruct l as [|y l]; cbn [join].
  - apply identifier_ids; exact X.
  - rewrite !forallb_app, !andb_true_iff. split; [apply identifier_ids; exact X|]. split; [reflexivity|exact IH].
Qed.
Lemma id_text_ids i : valid_id i -> forallb id_ch (id_text i) = true.
Proof.
  intros ((ids & _ & I & N) & S & M). unfold id_text. rewrite forallb_app. cbn [forallb]. rewrite forallb_app.
  rewrite N, (join_ids _ I), (identifier_ids _ S). destruct (sid_member i); [|reflexivity].
  cbn [forallb]. rewrite (identifier_ids _ M). reflexivity.
Qed.
Lemma digits_plain f : forall n acc, forallb id_ch acc = true -> forallb id_ch (dec_digits f n acc) = true.
Proof.
  induction f as [|f IH]; intros n acc A; [exact A|]. cbn [dec_digits].
  assert (forallb id_ch (digit_ch (n mod 10) :: acc) = true) as B.
  { cbn [forallb]. rewrite A, andb_true_r. assert (0 <= n mod 10 < 10)%Z as D by (apply Z.mod_pos_bound; lia).
    generalize dependent (n mod 10)%Z. intros d D.
    assert (d = 0 \/ d = 1 \/ d = 2 \/ d = 3 \/ d = 4 \/ d = 5 \/ d = 6 \/ d = 7 \/ d = 8 \/ d = 9)%Z as X by lia.
    destruct X as [->|[->|[->|[->|[->|[->|[->|[->|[->| ->]]]]]]]]]; reflexivity. }
  destruct (n / 10 =? 0)%Z; [exact B|apply IH; exact B].
Qed.
Lemma edge_name_ids n : forallb id_ch (edge_name n) = true.
Proof. unfold edge_name, nat_to_str. rewrite forallb_app, andb_true_iff. split; [reflexivity|apply digits_plain; reflexivity]. Qed.

(** Attributes written with one blank before each. *)
Definition one_attr (a : str * str) : str := lit " " ++ fst a ++ lit "=""" ++ snd a ++ lit """".
Lemma std_attrs l :
  Forall (fun a => xml_name (fst a) /\ forallb plain_ch (snd a) = true) l -> NoDup (map fst l) ->
  attrs_text l (flat_map one_attr l).
Proof.
  induction 1 as [|[n v] l [N V] L IH]; intros D; [constructor|].
  inversion D as [|? ? X Y]; subst. cbn [flat_map]. unfold one_attr at 1. cbn [fst snd] in *. rewrite <- !app_assoc.
  rewrite <- (plain_normal v V) at 1. apply at_cons; auto; [discriminate|reflexivity|apply plain_attr; exact V].
Qed.
Lemma content_blank w l t : blank w -> content l t -> content l (w ++ t).
Proof.
  intros W C. destruct C as [w'|w' x s l t B S C].
  - apply ct_nil. unfold blank in *. rewrite forallb_app, W. exact H.
  - rewrite app_assoc. apply ct_cons; auto. unfold blank in *. rewrite forallb_app, W. exact B.
Qed.
Lemma content_line ind x s l t : blank ind -> spells x s -> content l t -> content (x :: l) (ind ++ s ++ [eol] ++ t).
Proof. intros I S C. apply ct_cons; auto. apply content_blank; [reflexivity|exact C]. Qed.
Lemma data_spells key text :
  forallb plain_ch key = true -> char_data text ->
  spells (Leaf (lit "data") [(lit "key", key)] text) (lit "<data key=""" ++ key ++ lit """>" ++ text ++ lit "</data>").
Proof.
  intros K T.
  pose proof (sp_leaf (lit "data") [(lit "key", key)] (flat_map one_attr [(lit "key", key)]) text) as S.
  refine (eq_ind _ (spells _) (S _ _ T) _ _).
  - split; reflexivity.
  - apply std_attrs; [|repeat constructor; cbn; tauto]. constructor; [|constructor]. cbn [fst snd]. repeat split; auto.
  - cbn [flat_map]. unfold one_attr. cbn [fst snd]. rewrite app_nil_r, <- !app_assoc. reflexivity.
Qed.

Lemma node_spells id ty v l t :
  valid_id id -> forallb plain_ch ty = true -> match v with Some x => char_data x | None => True end ->
  content l t ->
  content (Node (lit "node") [(lit "id", id_text id)]
        (data "type" ty :: match v with Some x => [data "version" x] | None => [] end) :: l) (node_text id ty v ++ t).
Proof.
  intros I T V C.
  pose (body := [eol] ++ lit "            " ++ (lit "<data key=""type"">" ++ ty ++ lit "</data>") ++ [eol] ++
    match v with
    | Some x => lit "            " ++ (lit "<data key=""version"">" ++ x ++ lit "</data>") ++ [eol] ++ lit "        "
    | None => lit "        " end).
  assert (content (data "type" ty :: match v with Some x => [data "version" x] | None => [] end) body) as B.
  { unfold body. apply content_blank; [reflexivity|]. apply content_line; [reflexivity| |].
    - apply (data_spells (lit "type") ty); [reflexivity|apply plain_data; exact T].
    - destruct v as [x|].
      + apply content_line; [reflexivity| |apply ct_nil; reflexivity]. apply (data_spells (lit "version") x); [reflexivity|exact V].
      + apply ct_nil. reflexivity. }
  assert (spells (Node (lit "node") [(lit "id", id_text id)]
        (data "type" ty :: match v with Some x => [data "version" x] | None => [] end))
        (lit "<" ++ lit "node" ++ flat_map one_attr [(lit "id", id_text id)] ++ lit ">" ++ body ++ lit "</" ++ lit "node" ++ lit ">")) as S.
  { apply sp_node; [split; reflexivity| |exact B].
    apply std_attrs; [|repeat constructor; cbn; tauto]. constructor; [|constructor]. cbn [fst snd]. split; [split; reflexivity|].
    eapply forallb_imp; [exact id_plain|apply id_text_ids; exact I]. }
  pose proof (content_line (lit "        ") _ _ l t eq_refl S C) as X.
  refine (eq_ind _ (content _) X _ _). unfold node_text, body. rewrite sid_display_text.
  cbn [flat_map]. unfold one_attr. cbn [fst snd]. rewrite app_nil_r.
  destruct v as [x|]; rewrite <- !app_assoc; reflexivity.
Qed.
Lemma edge_spells n a b key text l t :
  valid_id a -> valid_id b -> forallb plain_ch key = true -> forallb plain_ch text = true -> content l t ->
  content (Node (lit "edge") [(lit "id", edge_name n); (lit "source", id_text a); (lit "target", id_text b)]
        [Leaf (lit "data") [(lit "key", key)] text] :: l) (edge_text n a b key text ++ t).
Proof.
  intros A B K T C.
  pose (body := [eol] ++ lit "            " ++ (lit "<data key=""" ++ key ++ lit """>" ++ text ++ lit "</data>") ++ [eol] ++ lit "        ").
  assert (content [Leaf (lit "data") [(lit "key", key)] text] body) as D.
  { unfold body. apply content_blank; [reflexivity|]. apply content_line; [reflexivity| |apply ct_nil; reflexivity].
    apply data_spells; [exact K|apply plain_data; exact T]. }
  pose (at_ := [(lit "id", edge_name n); (lit "source", id_text a); (lit "target", id_text b)]).
  assert (spells (Node (lit "edge") at_ [Leaf (lit "data") [(lit "key", key)] text])
        (lit "<" ++ lit "edge" ++ flat_map one_attr at_ ++ lit ">" ++ body ++ lit "</" ++ lit "edge" ++ lit ">")) as S.
  { apply sp_node; [split; reflexivity| |exact D].
    apply std_attrs.
    - unfold at_. repeat constructor; cbn [fst snd]; try reflexivity; (eapply forallb_imp; [exact id_plain|]);
        [apply edge_name_ids|apply id_text_ids; exact A|apply id_text_ids; exact B].
    - repeat constructor; cbn; intuition discriminate. }
  pose proof (content_line (lit "        ") _ _ l t eq_refl S C) as X.
  refine (eq_ind _ (content _) X _ _). unfold edge_text, edge_line, body, at_. rewrite !sid_display_text.
  cbn [flat_map]. unfold one_attr. cbn [fst snd]. rewrite app_nil_r. rewrite <- !app_assoc. reflexivity.
Qed.
Lemma type_plain b : forallb plain_ch (type_name b) = true.
Proof. destruct b as [[]| | | | | | | | |]; reflexivity. Qed.

(** What [shape_drawing] produces. *)
Definition tidy (d : drawn) : Prop :=
  match d with
  | DNode _ ty _ => forallb plain_ch ty = true
  | DEdge _ _ key _ => forallb plain_ch key = true
  end.
Lemma drawing_tidy m : Forall tidy (drawing m).
Proof.
  unfold drawing. apply Forall_flat_map. apply Forall_forall. intros e _. unfold shape_drawing.
  destruct (ts_body (snd e)) eqn:B; try constructor; try apply type_plain; try reflexivity;
    apply Forall_app; split; apply Forall_forall; intros x X; apply in_map_iff in X; destruct X as (y & <- & _); reflexivity.
Qed.
Lemma drawn_spells l : forall n rest t, Forall tidy l -> Forall drawable l -> content rest t ->
  content (drawn_xml n l ++ rest) (drawn_text n l ++ t).
Proof.
  induction l as [|d l IH]; intros n rest t T D C; [exact C|]. inversion T; inversion D; subst.
  destruct d as [id ty v|a b k x]; cbn [drawn_xml drawn_text app]; rewrite <- app_assoc.
  - destruct H5 as [I V]. apply node_spells; auto.
  - destruct H5 as (A & B & X). apply edge_spells; auto.
    eapply forallb_imp; [exact id_plain|apply identifier_ids; exact X].
Qed.

Ltac attr_list := apply std_attrs; [repeat constructor; reflexivity|repeat constructor; cbn; intuition discriminate].
Lemma key_spells id f n ty :
  forallb plain_ch (lit id) = true -> forallb plain_ch (lit f) = true -> forallb plain_ch (lit n) = true ->
  forallb plain_ch (lit ty) = true ->
  spells (key_decl id f n ty [])
    (lit "<" ++ lit "key" ++ flat_map one_attr [(lit "id", lit id); (lit "for", lit f); (lit "attr.name", lit n); (lit "attr.type", lit ty)] ++ lit "/>").
Proof.
  intros I F N T. apply sp_empty; [split; reflexivity|]. apply std_attrs.
  - repeat constructor; auto.
  - repeat constructor; cbn; intuition discriminate.
Qed.
Definition member_key_text : str :=
  lit "<" ++ lit "key" ++ flat_map one_attr [(lit "id", lit "member"); (lit "for", lit "edge"); (lit "attr.name", lit "member"); (lit "attr.type", lit "string")]
  ++ lit ">" ++ ([eol] ++ lit "        " ++ (lit "<" ++ lit "default" ++ [] ++ lit ">" ++ lit "member" ++ lit "</" ++ lit "default" ++ lit ">") ++ [eol] ++ lit "    ")
  ++ lit "</" ++ lit "key" ++ lit ">".
Lemma member_key_spells :
  spells (key_decl "member" "edge" "member" "string" [Leaf (lit "default") [] (lit "member")]) member_key_text.
Proof.
  apply sp_node; [split; reflexivity|attr_list|]. apply content_blank; [reflexivity|].
  apply content_line; [reflexivity| |apply ct_nil; reflexivity].
  apply sp_leaf; [split; reflexivity|constructor|apply plain_data; reflexivity].
Qed.
Definition graph_text (d : str) : str :=
  lit "<" ++ lit "graph" ++ flat_map one_attr [(lit "id", lit "model"); (lit "edgedefault", lit "directed")] ++ lit ">"
  ++ ([eol] ++ lit "        " ++ (lit "<data key=""" ++ lit "smithy.version" ++ lit """>" ++ lit "1.0" ++ lit "</data>") ++ [eol] ++ d)
  ++ lit "</" ++ lit "graph" ++ lit ">".
Lemma graph_spells kids d : content kids d ->
  spells (Node (lit "graph") [(lit "id", lit "model"); (lit "edgedefault", lit "directed")] (data "smithy.version" (lit "1.0") :: kids))
    (graph_text d).
Proof.
  intros K. apply sp_node; [split; reflexivity|attr_list|]. apply content_blank; [reflexivity|].
  apply content_line; [reflexivity| |exact K]. apply data_spells; [reflexivity|apply plain_data; reflexivity].
Qed.
Definition keys_text (g : str) : str :=
  [eol] ++ lit "    " ++ (lit "<" ++ lit "key" ++ flat_map one_attr [(lit "id", lit "smithy-version"); (lit "for", lit "graph"); (lit "attr.name", lit "smithy.version"); (lit "attr.type", lit "string")] ++ lit "/>")
  ++ [eol] ++ lit "    " ++ (lit "<" ++ lit "key" ++ flat_map one_attr [(lit "id", lit "type"); (lit "for", lit "node"); (lit "attr.name", lit "type"); (lit "attr.type", lit "string")] ++ lit "/>")
  ++ [eol] ++ lit "    " ++ (lit "<" ++ lit "key" ++ flat_map one_attr [(lit "id", lit "version"); (lit "for", lit "node"); (lit "attr.name", lit "version"); (lit "attr.type", lit "string")] ++ lit "/>")
  ++ [eol] ++ lit "    " ++ (lit "<" ++ lit "key" ++ flat_map one_attr [(lit "id", lit "trait"); (lit "for", lit "edge"); (lit "attr.name", lit "trait"); (lit "attr.type", lit "boolean")] ++ lit "/>")
  ++ [eol] ++ lit "    " ++ member_key_text
  ++ [eol] ++ lit "    " ++ g ++ [eol] ++ [].
Definition top_attrs_text : str :=
  lit " " ++ lit "xmlns" ++ lit "=""" ++ lit "http://graphml.graphdrawing.org/xmlns" ++ lit """"
  ++ (eol :: lit "    ") ++ lit "xmlns:xsi" ++ lit "=""" ++ lit "http://www.w3.org/2001/XMLSchema-instance" ++ lit """"
  ++ (eol :: lit "    ") ++ lit "xsi:schemaLocation" ++ lit "=""" ++
     (lit "http://graphml.graphdrawing.org/xmlns" ++ eol :: lit "        http://graphml.graphdrawing.org/xmlns/1.0/graphml.xsd") ++ lit """" ++ [].
Lemma top_attrs :
  attrs_text
    [ (lit "xmlns", lit "http://graphml.graphdrawing.org/xmlns");
      (lit "xmlns:xsi", lit "http://www.w3.org/2001/XMLSchema-instance");
      (lit "xsi:schemaLocation",
       lit "http://graphml.graphdrawing.org/xmlns         http://graphml.graphdrawing.org/xmlns/1.0/graphml.xsd") ] top_attrs_text.
Proof.
  unfold top_attrs_text.
  apply (at_cons (lit " ") (lit "xmlns") (lit "http://graphml.graphdrawing.org/xmlns"));
    [discriminate|reflexivity|split; reflexivity|reflexivity|cbn; intuition discriminate|].
  apply (at_cons (eol :: lit "    ") (lit "xmlns:xsi") (lit "http://www.w3.org/2001/XMLSchema-instance"));
    [discriminate|reflexivity|split; reflexivity|reflexivity|cbn; intuition discriminate|].
  apply (at_cons (eol :: lit "    ") (lit "xsi:schemaLocation") (lit "http://graphml.graphdrawing.org/xmlns" ++ eol :: lit "        http://graphml.graphdrawing.org/xmlns/1.0/graphml.xsd") []);
    [discriminate|reflexivity|split; reflexivity|reflexivity|cbn; intuition discriminate|constructor].
Qed.
Lemma graphml_document m : Forall drawable (drawing m) -> document (graphml_xml m) (graphml_text m).
Proof.
  intros D.
  assert (content (drawn_xml 0 (drawing m)) (drawn_text 0 (drawing m) ++ lit "    ")) as K.
  { rewrite <- (app_nil_r (drawn_xml 0 (drawing m))). apply drawn_spells; [apply drawing_tidy|exact D|apply ct_nil; reflexivity]. }
  pose proof (graph_spells _ _ K) as G.
  assert (spells (graphml_xml m) (lit "<" ++ lit "graphml" ++ top_attrs_text ++ lit ">"
    ++ keys_text (graph_text (drawn_text 0 (drawing m) ++ lit "    ")) ++ lit "</" ++ lit "graphml" ++ lit ">")) as S.
  { apply sp_node; [split; reflexivity|exact top_attrs|]. unfold keys_text. apply content_blank; [reflexivity|].
    apply content_line; [reflexivity|apply key_spells; reflexivity|].
    apply content_line; [reflexivity|apply key_spells; reflexivity|].
    apply content_line; [reflexivity|apply key_spells; reflexivity|].
    apply content_line; [reflexivity|apply key_spells; reflexivity|].
    apply content_line; [reflexivity|apply member_key_spells|].
    apply content_line; [reflexivity|exact G|apply ct_nil; reflexivity]. }
  pose proof (doc [eol] _ _ [eol] eq_refl S eq_refl) as X.
  refine (eq_ind _ (document _) X _ _). unfold graphml_text, keys_text, graph_text.
  rewrite <- !app_assoc. generalize (drawn_text 0 (drawing m)). intros d. reflexivity.
Qed.

(* ------------------------------------------------------------ malformed texts *)
Fixpoint count_ch (c : ascii) (s : str) : nat :=
  match s with [] => 0 | x :: s' => (if Ascii.eqb x c then 1 else 0) + count_ch c s' end.
Lemma count_app c a b : count_ch c (a ++ b) = count_ch c a + count_ch c b.
Proof. induction a as [|x a IH]; cbn; [reflexivity|]. rewrite IH. lia. Qed.
Lemma count_none p c s : forallb p s = true -> p c = false -> count_ch c s = 0.
Proof.
  intros F P. induction s as [|x s IH]; [reflexivity|]. cbn in *. apply andb_true_iff in F. destruct F as [X F].
  destruct (Ascii.eqb x c) eqn:Q; [apply Ascii.eqb_eq in Q; subst; congruence|]. apply IH; exact F.
Qed.
Lemma attrs_lt l t : attrs_text l t -> count_ch "<" t = 0.
Proof.
  induction 1 as [|w n raw l t W B N R D A IH]; [reflexivity|]. rewrite !count_app, IH.
  rewrite (count_none blank_ch "<" w B eq_refl). destruct n as [|c n]; [destruct N|]. destruct N as [_ N].
  rewrite (count_none name_ch "<" _ N eq_refl), (count_none attr_ch "<" raw R eq_refl). reflexivity.
Qed.
Scheme spells_mut := Induction for spells Sort Prop with content_mut := Induction for content Sort Prop.
Lemma name_lt n : xml_name n -> count_ch "<" n = 0.
Proof. destruct n as [|c n]; [intros []|]. intros [_ N]. exact (count_none name_ch "<" _ N eq_refl). Qed.
Lemma spells_balanced x s : spells x s -> count_ch "<" s <= count_ch ">" s.
Proof.
  intros S. apply (spells_mut (fun x s _ => count_ch "<" s <= count_ch ">" s) (fun l s _ => count_ch "<" s <= count_ch ">" s)) with x; auto;
    clear.
  - intros tag attrs a text N A [P _]. rewrite !count_app, (attrs_lt _ _ A), (name_lt _ N), (count_none plain_text_ch "<" _ P eq_refl). cbn. lia.
  - intros tag attrs a kids s N A _ IH. rewrite !count_app, (attrs_lt _ _ A), (name_lt _ N). cbn. lia.
  - intros tag attrs a N A. rewrite !count_app, (attrs_lt _ _ A), (name_lt _ N). cbn. lia.
  - intros w W. rewrite (count_none blank_ch "<" w W eq_refl). lia.
  - intros w x s l t W _ IH1 _ IH2. rewrite !count_app, (count_none blank_ch "<" w W eq_refl). lia.
Qed.
Lemma document_balanced x s : document x s -> count_ch "<" s <= count_ch ">" s.
Proof.
  intros [w y t w' W S W']. rewrite !count_app, (count_none blank_ch "<" w W eq_refl), (count_none blank_ch "<" w' W' eq_refl).
  pose proof (spells_balanced _ _ S). cbn. lia.
Qed.

(* ------------------------------------------------------------ ids in the tree *)
Lemma edge_ids_xml l : forall n, flat_map (attr_values "edge" "id") (drawn_xml n l) = map edge_name (seq n (E l)).
Proof.
  induction l as [|[id ty v|a b k x] l IH]; intros n; [reflexivity| |].
  - cbn [drawn_xml flat_map]. rewrite IH. destruct v; reflexivity.
  - cbn [drawn_xml flat_map]. rewrite IH. reflexivity.
Qed.
Lemma edge_name_inj a b : (Z.of_nat a < 65536)%Z -> (Z.of_nat b < 65536)%Z -> edge_name a = edge_name b -> a = b.
Proof.
  intros A B H. unfold edge_name in H. apply app_inv_head in H. rewrite !Z.mod_small in H by lia.
  apply (f_equal (fun s => fold_left dec_step s 0%Z)) in H. rewrite !nat_to_str_val in H by lia. lia.
Qed.
