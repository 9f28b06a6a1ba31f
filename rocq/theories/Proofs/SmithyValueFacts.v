(** Values of the Smithy IDL: what is written is read back. *)
From Verif.Model Require Import SelectorParse SmithyParse SmithyWrite.
From Verif.Spec Require Import SmithySpec.
From Verif.Proofs Require Import BaseFacts HashMapFacts ValueFacts PegFacts SmithyGrammarFacts.
From Verif.Proofs Require SelectorFacts SelectorGrammarFacts.

Lemma fold_result_ext {S A} (f g : S -> A -> result S) l : (forall s x, f s x = g s x) -> forall s, fold_result f l s = fold_result g l s.
Proof. intros E. induction l as [|x l IH]; intros s; cbn; [reflexivity|]. rewrite E. destruct (g s x); auto. Qed.
(** A loop in which every step succeeds. *)
Lemma fold_result_run {S A} (f : S -> A -> result S) l : forall (h : A -> S -> S) s, (forall s x, In x l -> f s x = Ok (h x s)) ->
  fold_result f l s = Ok (fold_left (fun s x => h x s) l s).
Proof.
  induction l as [|x l IH]; intros h s E; cbn; [reflexivity|]. rewrite E by (left; reflexivity).
  apply IH. intros s' y Y. apply E. right. exact Y.
Qed.

Lemma idl_value_array f64_parse r t0 t inner more :
  idl_value f64_parse (Pair r t0 (Pair I_node_array t inner :: more)) =
  (vs <- fold_result (fun vs q => match p_rule q with
                                  | I_node_value => v <- idl_value f64_parse q ;; Ok (vs ++ [v])
                                  | _ => unexpected "parse_node_array"
                                  end) inner [] ;; Ok (VArray vs)).
Proof. cbn [idl_value]. f_equal. apply fold_result_ext. intros s [rq tq iq]. reflexivity. Qed.
Lemma idl_value_object f64_parse r t0 t inner more :
  idl_value f64_parse (Pair r t0 (Pair I_node_object t inner :: more)) =
  (vs <- idl_object f64_parse (Pair I_node_object t inner) ;; Ok (VObject vs)).
Proof.
  cbn [idl_value]. unfold idl_object. f_equal. apply fold_result_ext. intros s [rq tq iq]. cbn [p_rule p_inner].
  destruct rq; try reflexivity. unfold idl_kvp. cbn [p_inner]. destruct (fold_result _ iq _) as [x|e|]; reflexivity.
Qed.

Section Facts.
  Variables (f64_str : Z -> str) (debug_str : str -> str) (f64_parse : str -> Z).
  Notation value_writable := (value_writable f64_str debug_str f64_parse).
  Notation write_value := (write_value f64_str debug_str).
  Notation idl_value := (idl_value f64_parse).
  Notation idl_kvp := (idl_kvp f64_parse).

  (** [t] is read as the value [v]. *)
  Definition reads (t : str) (v : value) : Prop := solid t /\ exists p,
    p_rule p = I_node_value /\ idl_value p = Ok v
    /\ forall r, follow r -> ev false (icall I_node_value) (t ++ r) (Some ([p], r)).

  (** *** Scalars *)
  Lemma number_solid sign w x : sign = [] \/ sign = lit "-" -> whole w -> solid ((sign ++ w) ++ x).
  Proof.
    intros [-> | ->] W; [|split; [reflexivity|discriminate]]. destruct W as [-> | (c & r & -> & C & _)]; [split; [reflexivity|discriminate]|].
    cbn [app solid]. all_chars c; try discriminate C; (split; [reflexivity|discriminate]).
  Qed.
  Lemma number_first sign w x : sign = [] \/ sign = lit "-" -> whole w ->
    ev false (icall I_node_array) ((sign ++ w) ++ x) None /\ ev false (icall I_node_object) ((sign ++ w) ++ x) None.
  Proof.
    intros [-> | ->] W; [|split; ev_compute]. destruct W as [-> | (c & r & -> & C & _)]; [split; ev_compute|].
    split; exists 20; all_chars c; try discriminate C; reflexivity.
  Qed.
  Lemma reads_number t v : (exists sign w x, t = (sign ++ w) ++ x /\ (sign = [] \/ sign = lit "-") /\ whole w) ->
    (exists ps, forall r, follow r -> ev false (icall I_number) (t ++ r) (Some ([Pair I_number t ps], r))) ->
    idl_number f64_parse t = Ok v -> reads t v.
  Proof.
    intros (sign & w & x & E & S & W) [ps P] V. split; [rewrite E; apply number_solid; assumption|].
    exists (Pair I_node_value t [Pair I_number t ps]). split; [reflexivity|]. split; [exact V|]. intros r F.
    refine (ev_normal I_node_value t _ r eq_refl _). cbn [snd smithy_rule PAlts].
    destruct (number_first sign w (x ++ r) S W) as [A B]. rewrite app_assoc, <- E in A, B.
    apply ev_alt2; [exact A|]. apply ev_alt2; [exact B|]. apply ev_alt1, P, F.
  Qed.
  Lemma reads_int n : (-9223372036854775808 <= n <= 9223372036854775807)%Z -> reads (int_to_str n) (VNumber (NInteger n)).
  Proof.
    intros B. destruct (SelectorFacts.int_text n) as (sign & w & E & S & W). apply reads_number.
    - exists sign, w, []. rewrite app_nil_r. auto.
    - rewrite E. apply ev_integer; assumption.
    - unfold idl_number. rewrite (SelectorFacts.i64_of_int n B), E, existsb_app, (SelectorFacts.no_dot _ (SelectorFacts.whole_digits _ W)).
      destruct S as [-> | ->]; reflexivity.
  Qed.
  Lemma reads_float b : decimal (f64_str b) -> f64_parse (f64_str b) = b -> reads (f64_str b) (VNumber (NFloat b)).
  Proof.
    intros D E. assert (D' := D). destruct D as (sign & w & fr & T & S & W & _). apply reads_number.
    - exists sign, w, ("."%char :: fr). rewrite <- app_assoc. auto.
    - apply ev_decimal, D'.
    - unfold idl_number. rewrite E, T, !existsb_app. cbn [existsb]. rewrite !orb_true_r. reflexivity.
  Qed.
  Lemma reads_bool b : reads (bool_str b) (VBoolean b).
  Proof.
    destruct b.
    - split; [split; [reflexivity|discriminate]|]. exists (Pair I_node_value (lit "true") [Pair I_kw_true (lit "true") []]).
      split; [reflexivity|]. split; [reflexivity|]. intros r F. refine (ev_normal I_node_value (lit "true") _ r eq_refl _). cbn [snd smithy_rule PAlts].
      do 3 (apply ev_alt2; [ev_compute|]). apply ev_alt1. apply (ev_silent I_node_keywords); [reflexivity|]. cbn [snd smithy_rule PAlts].
      apply ev_alt1. exact (ev_token I_kw_true _ r eq_refl).
    - split; [split; [reflexivity|discriminate]|]. exists (Pair I_node_value (lit "false") [Pair I_kw_false (lit "false") []]).
      split; [reflexivity|]. split; [reflexivity|]. intros r F. refine (ev_normal I_node_value (lit "false") _ r eq_refl _). cbn [snd smithy_rule PAlts].
      do 3 (apply ev_alt2; [ev_compute|]). apply ev_alt1. apply (ev_silent I_node_keywords); [reflexivity|]. cbn [snd smithy_rule PAlts].
      apply ev_alt2; [ev_compute|]. apply ev_alt1. exact (ev_token I_kw_false _ r eq_refl).
  Qed.
  Lemma quoted_solid s : solid (quoted s).
  Proof. split; [reflexivity|discriminate]. Qed.
  Lemma reads_text s : plain_text s -> reads (quoted s) (VString s).
  Proof.
    intros T. split; [apply quoted_solid|]. eexists (Pair I_node_value (quoted s) _). split; [reflexivity|]. split; [|intros r F].
    2:{ refine (ev_normal I_node_value _ _ r eq_refl _). cbn [snd smithy_rule PAlts].
        do 5 (apply ev_alt2; [ev_compute|]). apply ev_alt2; [apply ev_no_block; assumption|]. exact (ev_quoted s r T). }
    reflexivity.
  Qed.
  Lemma keyword_free n rest x : (forall r, n <> x ++ r) -> forallb (fun c => negb (follow_char c)) x = true -> x <> [] -> follow rest ->
    strip_prefix x (n ++ rest) = None.
  Proof.
    intros K X NE F. destruct (strip_prefix x (n ++ rest)) as [s|] eqn:E; [|reflexivity]. exfalso.
    apply strip_prefix_Some in E. symmetry in E. apply app_eq_app in E as (l & [[-> E]|[-> E]]); [|exact (K l eq_refl)].
    destruct l as [|c l]; [apply (K []); rewrite !app_nil_r; reflexivity|]. subst rest. cbn [app follow] in F.
    rewrite forallb_app in X. apply andb_true_iff in X as [_ X]. cbn [forallb] in X. rewrite F in X. discriminate X.
  Qed.
  Lemma short_first n r : short_identifier n -> ev false (icall I_node_array) (n ++ r) None
    /\ ev false (icall I_node_object) (n ++ r) None /\ ev false (icall I_number) (n ++ r) None.
  Proof.
    intros S. destruct (short_head n S) as (c & u & -> & A). cbn [app].
    repeat split; exists 20; (destruct A as [A| ->]; [|reflexivity]); all_chars c; try discriminate A; reflexivity.
  Qed.
  Lemma reads_name n : short_identifier n -> no_keyword n -> reads n (VString n).
  Proof.
    intros S K. split; [apply short_solid, S|]. exists (Pair I_node_value n [Pair I_shape_id n []]). split; [reflexivity|].
    split; [reflexivity|]. intros r F. refine (ev_normal I_node_value _ _ r eq_refl _). cbn [snd smithy_rule PAlts].
    destruct (short_first n r S) as (A & B & C). do 3 (apply ev_alt2; [assumption|]). apply ev_alt2; [|apply ev_alt1, ev_id_short; [assumption|left; assumption]].
    apply ev_rule_fail. cbn [fst snd smithy_rule PAlts sub_atomic].
    assert (T : forall q x, smithy_rule q = (Normal, PStr x) -> strip_prefix x (n ++ r) = None -> ev false (icall q) (n ++ r) None).
    { intros q x E P. apply ev_rule_fail. rewrite E. cbn [snd]. apply ev_str_fail, P. }
    apply ev_alt2; [apply (T I_kw_true (lit "true") eq_refl)|apply ev_alt2; [apply (T I_kw_false (lit "false") eq_refl)|apply (T I_kw_null (lit "null") eq_refl)]];
      (apply keyword_free; [intros x; apply (K x)|reflexivity|discriminate|exact F]).
  Qed.

  (** *** Arrays *)
  Lemma reads_items {X} (l : list X) (d : X -> str) (e : pexp irule) (Q : X -> ipair -> Prop) :
    Forall (fun x => solid (d x) /\ exists p, Q x p /\ forall r, follow r -> ev false e (d x ++ r) (Some ([p], r))) l ->
    exists ps, Forall2 Q l ps /\ Forall (item e) (combine (map d l) (map (fun p => [p]) ps)) /\ length ps = length l.
  Proof.
    induction 1 as [|x l (S & p & P & E) A (ps & F & I & L)]; [exists []; repeat split; constructor|].
    exists (p :: ps). split; [constructor; assumption|]. split; [cbn; constructor; [split; assumption|assumption]|]. cbn. lia.
  Qed.
  Lemma combine_fst {A B} (l : list A) (r : list B) : length l = length r -> map fst (combine l r) = l.
  Proof. revert r. induction l as [|a l IH]; intros [|b r] E; try discriminate E; [reflexivity|]. cbn. f_equal. apply IH. injection E as E. exact E. Qed.
  Lemma combine_snd {A B} (l : list A) (r : list B) : length l = length r -> map snd (combine l r) = r.
  Proof. revert r. induction l as [|a l IH]; intros [|b r] E; try discriminate E; [reflexivity|]. cbn. f_equal. apply IH. injection E as E. exact E. Qed.
  Lemma concat_single {A} (l : list A) : concat (map (fun x => [x]) l) = l.
  Proof. induction l as [|x l IH]; [reflexivity|]. cbn. f_equal. exact IH. Qed.
  (** A loop with separators over items that give one pair each. *)
  Lemma star_list {X} (l : list X) (d : X -> str) (e : pexp irule) (Q : X -> ipair -> Prop) sep : blank sep -> sep <> [] ->
    Forall (fun x => solid (d x) /\ exists p, Q x p /\ forall r, follow r -> ev false e (d x ++ r) (Some ([p], r))) l ->
    exists ps, Forall2 Q l ps /\ forall tail rest, blank tail -> (l = [] -> tail = []) -> no_ws rest -> follow (tail ++ rest) ->
      ev false e rest None -> ev false (PStar (PSeq e iws)) (join sep (map d l) ++ tail ++ rest) (Some (ps, rest)).
  Proof.
    intros BS NS A. destruct (reads_items l d e Q A) as (ps & F & I & L). exists ps. split; [exact F|].
    intros tail rest BT LT NW FR N.
    assert (L1 : length (map d l) = length (map (fun p : ipair => [p]) ps)) by (rewrite !map_length; lia).
    assert (R := star_items e sep _ tail rest BS NS I BT). rewrite (combine_fst _ _ L1), (combine_snd _ _ L1), concat_single in R.
    apply R; auto. intros E. apply LT. destruct l; [reflexivity|]. destruct ps; [discriminate L|]. discriminate E.
  Qed.
  Lemma star_ws_list {X} (l : list X) (d : X -> str) (e : pexp irule) (Q : X -> ipair -> Prop) sep : blank sep -> sep <> [] ->
    Forall (fun x => solid (d x) /\ exists p, Q x p /\ forall r, follow r -> ev false e (d x ++ r) (Some ([p], r))) l ->
    exists ps, Forall2 Q l ps /\ forall rest, follow rest -> ev false (PSeq iws e) rest None ->
      ev false (PStar (PSeq iws e)) (prefixed sep (map d l) ++ rest) (Some (ps, rest)).
  Proof.
    intros BS NS A. destruct (reads_items l d e Q A) as (ps & F & I & L). exists ps. split; [exact F|]. intros rest FR N.
    assert (L1 : length (map d l) = length (map (fun p : ipair => [p]) ps)) by (rewrite !map_length; lia).
    assert (R := star_ws_items e sep _ rest BS NS I FR N). rewrite (combine_fst _ _ L1), (combine_snd _ _ L1), concat_single in R. exact R.
  Qed.
  Definition comma_sep : str := lit ", ".
  Lemma comma_blank : blank comma_sep /\ comma_sep <> [].
  Proof. split; [repeat constructor|discriminate]. Qed.
  Lemma fold_array ps vs : Forall2 (fun v p => p_rule p = I_node_value /\ idl_value p = Ok v) vs ps -> forall acc,
    fold_result (fun vs q => match p_rule q with
                             | I_node_value => v <- idl_value q ;; Ok (vs ++ [v])
                             | _ => unexpected "parse_node_array"
                             end) ps acc = Ok (acc ++ vs).
  Proof.
    induction 1 as [|v p vs ps [R V] A IH]; intros acc; cbn [fold_result]; [rewrite app_nil_r; reflexivity|].
    rewrite R, V. cbn [rbind]. rewrite IH, <- app_assoc. reflexivity.
  Qed.
  Lemma open_no_ws {A} (l : list A) (d : A -> str) sep x : Forall (fun a => solid (d a)) l -> no_ws x -> no_ws (join sep (map d l) ++ x).
  Proof.
    intros F N. destruct F as [|a l S F]; [exact N|]. cbn [map join]. destruct (map d l); [|rewrite <- !app_assoc]; apply solid_no_ws, S.
  Qed.
  Lemma reads_array l : Forall (fun x => reads (fst x) (snd x)) l ->
    reads (lit "[" ++ join comma_sep (map fst l) ++ lit "]") (VArray (map snd l)).
  Proof.
    intros A. split; [split; [reflexivity|discriminate]|].
    destruct (star_list l fst (icall I_node_value) (fun x p => p_rule p = I_node_value /\ idl_value p = Ok (snd x)) comma_sep) as (ps & F & S);
      try apply comma_blank.
    { apply (Forall_impl _ (P := fun x => reads (fst x) (snd x))); [|exact A]. intros x (SO & p & P & V & E). split; [exact SO|]. exists p. auto. }
    eexists (Pair I_node_value _ [Pair I_node_array _ ps]). split; [reflexivity|]. split; [|intros r FR].
    2:{ refine (ev_normal I_node_value _ _ r eq_refl _). cbn [snd smithy_rule PAlts]. apply ev_alt1.
        refine (ev_normal I_node_array _ _ r eq_refl _). cbn [snd smithy_rule PSeqs]. rewrite <- !app_assoc.
        refine (sq_tok _ (lit "[") _ _ ps r _). refine (sq _ _ _ _ [] (join comma_sep (map fst l) ++ [] ++ lit "]" ++ r) ps r _ _).
        - apply ev_no_ws. apply open_no_ws; [|split; [reflexivity|discriminate]]. apply (Forall_impl _ (P := fun x => reads (fst x) (snd x))); [|exact A].
          intros x R. apply R.
        - refine (sq_end _ _ _ _ ps (lit "]" ++ r) r _ (ev_str _ _ _ _)).
          apply S; [constructor|reflexivity|split; [reflexivity|discriminate]|reflexivity|ev_compute]. }
    rewrite idl_value_array. rewrite (fold_array ps (map snd l)); [reflexivity|].
    clear -F. induction F; constructor; auto.
  Qed.

  (** *** Objects *)
  Definition key_text (k t : str) : str := k ++ lit ": " ++ t.
  Lemma key_solid k t : short_identifier k -> solid (key_text k t).
  Proof. intros S. apply solid_app, short_solid, S. Qed.
  (** Keys of entries, in both kinds of objects. *)
  Lemma ev_object_key k r : short_identifier k -> stop r ->
    ev false (icall I_node_object_key) (k ++ r) (Some ([Pair I_identifier k []], r)).
  Proof.
    intros S F. apply (ev_silent I_node_object_key); [reflexivity|]. cbn [snd smithy_rule]. apply ev_alt2.
    - destruct (short_head k S) as (c & u & -> & A). cbn [app]. exists 20. destruct A as [A| ->]; [|reflexivity].
      all_chars c; try discriminate A; reflexivity.
    - exact (ev_identifier false k r S F).
  Qed.
  Lemma ev_kvp q k t v : snd (smithy_rule q) = snd (smithy_rule I_node_object_kvp) -> fst (smithy_rule q) = Normal ->
    short_identifier k -> reads t v -> exists p, p_rule p = I_node_value /\ idl_value p = Ok v /\
    forall r, follow r -> ev false (icall q) (key_text k t ++ r) (Some ([Pair q (key_text k t) [Pair I_identifier k []; p]], r)).
  Proof.
    intros E1 E2 S (SO & p & P & V & E). exists p. split; [exact P|]. split; [exact V|]. intros r F.
    refine (ev_normal q _ _ r E2 _). rewrite E1. cbn [snd smithy_rule PSeqs]. unfold key_text. rewrite <- !app_assoc.
    change [Pair I_identifier k []; p] with ([Pair I_identifier k []] ++ [] ++ [p]).
    refine (sq _ _ _ _ _ _ _ _ (ev_object_key k _ S (follow_stop (lit ": " ++ t ++ r) eq_refl)) _).
    refine (sq _ _ _ _ [] (lit ": " ++ t ++ r) [p] r (ev_no_ws _ _ _) _); [split; [reflexivity|discriminate]|].
    change (lit ": " ++ t ++ r) with (lit ":" ++ lit " " ++ t ++ r).
    refine (sq_tok _ (lit ":") _ _ _ _ _). refine (sq _ _ _ _ [] (t ++ r) [p] r (ev_ws _ (lit " ") _ _ _) (E r F)).
    - repeat constructor.
    - apply solid_no_ws, SO.
  Qed.
  Notation entry := (str * (str * value))%type.
  (** An entry of an object: its key, and the text and meaning of its value. *)
  Definition entry_ok (x : entry) : Prop := short_identifier (fst x) /\ reads (fst (snd x)) (snd (snd x)).
  Definition entry_text (x : entry) : str := key_text (fst x) (fst (snd x)).
  Definition entry_value (x : entry) : str * value := (fst x, snd (snd x)).
  Lemma entries_kvp q l : snd (smithy_rule q) = snd (smithy_rule I_node_object_kvp) -> fst (smithy_rule q) = Normal ->
    Forall entry_ok l -> Forall (fun x => solid (entry_text x) /\ exists p,
      (exists v, p = Pair q (entry_text x) [Pair I_identifier (fst x) []; v] /\ p_rule v = I_node_value /\ idl_value v = Ok (snd (snd x)))
      /\ forall r, follow r -> ev false (icall q) (entry_text x ++ r) (Some ([p], r))) l.
  Proof.
    intros E1 E2 A. apply (Forall_impl _ (P := entry_ok)); [|exact A]. intros [k [t v]] [S R]. cbn [fst snd] in *.
    split; [apply key_solid, S|]. destruct (ev_kvp q k t v E1 E2 S R) as (p & P & V & E).
    eexists. split; [exists p; split; [reflexivity|auto]|]. exact E.
  Qed.
  Lemma insert_all {K V} (keq : K -> K -> bool) (EQ : equivb keq) (l : list (K * V)) : forall acc,
    distinct keq (acc ++ l) -> fold_left (fun m kv => hm_insert keq (fst kv) (snd kv) m) l acc = acc ++ l.
  Proof.
    induction l as [|[k v] l IH]; intros acc D; cbn [fold_left fst snd]; [rewrite app_nil_r; reflexivity|].
    rewrite hm_insert_fresh.
    - rewrite IH; [|rewrite <- app_assoc; exact D]. rewrite <- app_assoc. reflexivity.
    - apply hm_get_None_In. intros k' v' I. clear -D I EQ. induction acc as [|[a b] acc IH]; [destruct I|].
      cbn [app distinct] in D. destruct D as [D1 D2]. destruct I as [I|I]; [|auto]. injection I as -> ->.
      destruct (keq k' k) eqn:E; [|reflexivity]. rewrite <- (D1 k v); [|apply in_or_app; right; left; reflexivity].
      rewrite (eqv_sym _ EQ). symmetry. exact E.
  Qed.
  Lemma read_object t inner l : distinct str_eqb (map entry_value l) ->
    Forall2 (fun x p => exists v, p = Pair I_node_object_kvp (entry_text x) [Pair I_identifier (fst x) []; v]
                                  /\ p_rule v = I_node_value /\ idl_value v = Ok (snd (snd x))) l inner ->
    idl_object f64_parse (Pair I_node_object t inner) = Ok (map entry_value l).
  Proof.
    intros D F. unfold idl_object. cbn [p_inner].
    assert (K : forall acc, fold_result (fun vs q => match p_rule q with
        | I_node_object_kvp => e <- idl_kvp q ;; Ok (hm_insert str_eqb (fst e) (snd e) vs)
        | _ => unexpected "parse_node_object"
        end) inner acc = Ok (fold_left (fun m kv => hm_insert str_eqb (fst kv) (snd kv) m) (map entry_value l) acc)).
    { clear D. induction F as [|x p l inner (v & -> & R & V) F IH]; intros acc; [reflexivity|]. cbn [fold_result p_rule].
      unfold SmithyParse.idl_kvp. cbn [p_inner fold_result kvp_step rbind snd fst]. destruct v as [rv tv iv]. cbn [p_rule] in R. subst rv.
      cbn [kvp_step]. rewrite V. cbn [rbind both fst snd]. rewrite IH. reflexivity. }
    rewrite K, (insert_all _ str_eqb_equiv); [reflexivity|exact D].
  Qed.
  Lemma object_inside l : Forall entry_ok l -> exists inner,
    Forall2 (fun x p => exists v, p = Pair I_node_object_kvp (entry_text x) [Pair I_identifier (fst x) []; v]
                                  /\ p_rule v = I_node_value /\ idl_value v = Ok (snd (snd x))) l inner
    /\ forall sep, blank sep -> sep <> [] -> forall w tail r, blank w -> blank tail -> (l = [] -> tail = []) ->
      ev false (icall I_node_object) ((lit "{" ++ w ++ join sep (map entry_text l) ++ tail ++ lit "}") ++ r)
        (Some ([Pair I_node_object (lit "{" ++ w ++ join sep (map entry_text l) ++ tail ++ lit "}") inner], r)).
  Proof.
    intros A. assert (B := entries_kvp I_node_object_kvp l eq_refl eq_refl A).
    (* the pairs do not depend on the separator *)
    destruct (reads_items _ _ _ _ B) as (ps & F & I & L). exists ps. split; [exact F|].
    intros sep BS NS w tail r BW BT LT.
    assert (L1 : length (map entry_text l) = length (map (fun p : ipair => [p]) ps)) by (rewrite !map_length; lia).
    refine (ev_normal I_node_object _ _ r eq_refl _). cbn [snd smithy_rule PSeqs]. rewrite <- !app_assoc.
    refine (sq_tok _ (lit "{") _ _ ps r _). refine (sq _ _ _ _ [] (join sep (map entry_text l) ++ tail ++ lit "}" ++ r) ps r _ _).
    - apply ev_ws; [exact BW|]. destruct l as [|x l]; [rewrite (LT eq_refl); split; [reflexivity|discriminate]|].
      inversion B as [|x0 l0 [SX _] B']; subst. cbn [map join]. destruct (map entry_text l); [|rewrite <- !app_assoc]; apply solid_no_ws, SX.
    - refine (sq_end _ _ _ _ ps (lit "}" ++ r) r _ (ev_str _ _ _ _)).
      assert (R := star_items (icall I_node_object_kvp) sep _ tail (lit "}" ++ r) BS NS I BT). rewrite (combine_fst _ _ L1), (combine_snd _ _ L1), concat_single in R.
      apply R; [|split; [reflexivity|discriminate]| |ev_compute].
      + intros E. apply LT. destruct l; [reflexivity|]. destruct ps; [discriminate L|]. discriminate E.
      + destruct tail as [|c u]; [reflexivity|]. apply blank_follow; [exact BT|discriminate].
  Qed.
  Lemma reads_object l sep w tail : Forall entry_ok l -> distinct str_eqb (map entry_value l) -> blank sep -> sep <> [] ->
    blank w -> blank tail -> (l = [] -> tail = []) ->
    reads (lit "{" ++ w ++ join sep (map entry_text l) ++ tail ++ lit "}") (VObject (map entry_value l)).
  Proof.
    intros A D BS NS BW BT LT. split; [split; [reflexivity|discriminate]|].
    destruct (object_inside l A) as (inner & F & E).
    eexists (Pair I_node_value _ [Pair I_node_object _ inner]). split; [reflexivity|]. split; [|intros r FR].
    2:{ refine (ev_normal I_node_value _ _ r eq_refl _). cbn [snd smithy_rule PAlts]. apply ev_alt2; [ev_compute|]. apply ev_alt1.
        apply E; assumption. }
    rewrite idl_value_object, (read_object _ inner l D F). reflexivity.
  Qed.

  (** *** Everything *)
  Lemma reads_value v : value_writable v -> reads (write_value v false) v.
  Proof.
    induction v as [l IH|l IH|n|b|s|] using value_ind'; intros W; inversion W; subst; cbn [SmithyWrite.write_value].
    - rename H0 into F. assert (A : Forall (fun v => reads (write_value v false) v) l).
      { apply Forall_forall. rewrite Forall_forall in IH, F. auto. }
      assert (R := reads_array (map (fun v => (write_value v false, v)) l)). rewrite !map_map in R. cbn [fst snd] in R. rewrite map_id in R.
      apply R. clear -A. induction A; constructor; auto.
    - rename H0 into D, H1 into F.
      assert (A : Forall entry_ok (map (fun e => (fst e, (write_value (snd e) false, snd e))) l)).
      { apply Forall_forall. intros x I. apply in_map_iff in I as ([k v] & <- & I). rewrite Forall_forall in IH, F.
        destruct (F _ I) as [S V]. split; [exact S|]. exact (IH _ I V). }
      assert (EV : map entry_value (map (fun e : str * value => (fst e, (write_value (snd e) false, snd e))) l) = l).
      { rewrite map_map. rewrite <- (map_id l) at 2. apply map_ext. intros [k v]. reflexivity. }
      assert (R := reads_object _ comma_sep [] [] A). rewrite EV in R. rewrite map_map in R.
      apply R; auto; try apply comma_blank; constructor.
    - apply reads_int. assumption.
    - apply reads_float; assumption.
    - apply reads_bool.
    - match goal with T : text_writable _ _ |- _ => destruct T as [T E]; rewrite E; apply reads_text, T end.
  Qed.
End Facts.
