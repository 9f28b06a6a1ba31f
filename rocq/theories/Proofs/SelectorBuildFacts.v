(** Facts about the builders of selectors. *)
From Verif.Model Require Import SelectorBuild.
From Verif.Spec Require Import SelectorBuildSpec.
From Verif.Proofs Require Import ShapeApiFacts.

Lemma function_method_name b m args :
  start_function m args = sb_function_from (function_text m) args
  /\ add_function_method b m args = sb_add_function_from b (function_text m) args.
Proof. destruct m; split; reflexivity. Qed.
Lemma start_one c b : selector_start c = Ok b -> exists e, b = [e].
Proof.
  destruct c as [m|t|e|m args|n args|m|n|n sel|a|s]; cbn [selector_start]; try (intros E; injection E as <-; eexists; reflexivity).
  - rewrite (proj1 (function_method_name [] m args)). unfold sb_function_from. destruct (selectors_of args); cbn; [|discriminate|discriminate].
    destruct (function_new _ _); cbn; [|discriminate|discriminate]. intros E; injection E as <-; eexists; reflexivity.
  - unfold sb_function_from. destruct (selectors_of args); cbn; [|discriminate|discriminate].
    destruct (function_new _ _); cbn; [|discriminate|discriminate]. intros E; injection E as <-; eexists; reflexivity.
  - intros E; injection E as <-; destruct m; eexists; reflexivity.
  - unfold sb_definition_from. destruct (selector_of sel); cbn; [|discriminate|discriminate]. intros E; injection E as <-; eexists; reflexivity.
Qed.
Lemma add_one b c b' : selector_add b c = Ok b' -> exists e, b' = b ++ [e].
Proof.
  destruct c as [m|t|e|m args|n args|m|n|n sel|a|s]; cbn [selector_add]; try (intros E; injection E as <-; eexists; reflexivity).
  - rewrite (proj2 (function_method_name b m args)). unfold sb_add_function_from. destruct (selectors_of args); cbn; [|discriminate|discriminate].
    destruct (function_new _ _); cbn; [|discriminate|discriminate]. intros E; injection E as <-; eexists; reflexivity.
  - unfold sb_add_function_from. destruct (selectors_of args); cbn; [|discriminate|discriminate].
    destruct (function_new _ _); cbn; [|discriminate|discriminate]. intros E; injection E as <-; eexists; reflexivity.
  - intros E; injection E as <-; destruct m; eexists; reflexivity.
  - unfold sb_add_definition_from. destruct (selector_of sel); cbn; [|discriminate|discriminate]. intros E; injection E as <-; eexists; reflexivity.
Qed.
Lemma builder_value_nonempty b : builder_value b -> b <> [].
Proof.
  intros B. inversion B as [c b0 _ E|b0 c b' _ _ E]; subst.
  - apply start_one in E as [e ->]. discriminate.
  - apply add_one in E as [e ->]. destruct b0; discriminate.
Qed.
Lemma selectors_of_all args : Forall (fun b => b <> []) args -> selectors_of args = Ok args.
Proof.
  induction 1 as [|b args N _ IH]; [reflexivity|]. cbn. destruct b; [contradiction|]. cbn. rewrite IH. reflexivity.
Qed.

Section Text.
  Variable f64_str : Z -> str.
  Lemma call_meaning c : Forall (fun b => b <> []) (arguments c) ->
    (no_arguments c /\ selector_start c = Panic /\ forall b, selector_add b c = Panic)
    \/ (~ no_arguments c /\ (exists e, selector_start c = Ok [e] /\ stands_for f64_str c e)
        /\ exists e, stands_for f64_str c e /\ forall b, selector_add b c = Ok (b ++ [e])).
  Proof.
    intros A.
    assert (F : forall n args, Forall (fun b => b <> []) args ->
       (args = [] /\ sb_function_from n args = Panic /\ forall b, sb_add_function_from b n args = Panic)
       \/ (args <> [] /\ sb_function_from n args = Ok [XFunction n args] /\ forall b, sb_add_function_from b n args = Ok (b ++ [XFunction n args]))).
    { intros n args Fa. unfold sb_function_from, sb_add_function_from. rewrite (selectors_of_all _ Fa). destruct args as [|a0 args].
      - left. repeat split.
      - right. repeat split. discriminate. }
    destruct c as [m|t|e|m args|n args|m|n|n sel|a|s]; cbn [selector_start selector_add no_arguments].
    - right. split; [exact (fun x => x)|]. split.
      + eexists. split; [reflexivity|]. split; [destruct m; reflexivity|eexists; reflexivity].
      + eexists. split; [|reflexivity]. split; [destruct m; reflexivity|eexists; reflexivity].
    - right. split; [exact (fun x => x)|]. split; [eexists; split; [reflexivity|split; reflexivity]|(eexists; split; [|reflexivity]; split; reflexivity)].
    - right. split; [exact (fun x => x)|]. split; [eexists; split; [reflexivity|split; reflexivity]|(eexists; split; [|reflexivity]; split; reflexivity)].
    - cbn [arguments] in A. rewrite (proj1 (function_method_name [] m args)).
      destruct (F (function_text m) args A) as [(-> & S & G)|(N & S & G)].
      + left. split; [exact I|]. split; [exact S|]. intros b. rewrite (proj2 (function_method_name b m [])). apply G.
      + right. split; [destruct args; [contradiction|exact (fun x => x)]|]. split; [eexists; split; [exact S|]; split; reflexivity|].
        eexists. split; [|intros b; rewrite (proj2 (function_method_name b m args)); apply G]. split; reflexivity.
    - cbn [arguments] in A. destruct (F n args A) as [(-> & S & G)|(N & S & G)].
      + left. split; [exact I|]. split; [exact S|exact G].
      + right. split; [destruct args; [contradiction|exact (fun x => x)]|]. split; [eexists; split; [exact S|]; split; reflexivity|].
        eexists. split; [|exact G]. split; reflexivity.
    - right. split; [exact (fun x => x)|]. destruct m; (split; [eexists; split; [reflexivity|split; [reflexivity|eexists; reflexivity]]|eexists; split; [|reflexivity]; split; [reflexivity|eexists; reflexivity]]).
    - right. split; [exact (fun x => x)|]. split; [eexists; split; [reflexivity|split; reflexivity]|(eexists; split; [|reflexivity]; split; reflexivity)].
    - cbn [arguments] in A. apply Forall_inv in A. right. split; [exact (fun x => x)|]. unfold sb_definition_from, sb_add_definition_from.
      destruct sel as [|e0 sel]; [contradiction|]. cbn [selector_of rbind].
      split; [eexists; split; [reflexivity|split; reflexivity]|(eexists; split; [|reflexivity]; split; reflexivity)].
    - right. split; [exact (fun x => x)|]. split; [eexists; split; [reflexivity|split; reflexivity]|(eexists; split; [|reflexivity]; split; reflexivity)].
    - right. split; [exact (fun x => x)|]. split; [eexists; split; [reflexivity|split; reflexivity]|(eexists; split; [|reflexivity]; split; reflexivity)].
  Qed.

  Lemma selector_run cs : Forall (fun b => b <> []) (flat_map arguments cs) -> forall b,
    (Exists no_arguments cs /\ run selector_add b cs = Panic)
    \/ (~ Exists no_arguments cs /\ exists l, run selector_add b cs = Ok (b ++ l) /\ Forall2 (stands_for f64_str) cs l).
  Proof.
    induction cs as [|c cs IH]; intros A b.
    - right. split; [intros X; inversion X|]. exists []. rewrite app_nil_r. split; [reflexivity|constructor].
    - cbn [flat_map] in A. apply Forall_app in A as [A1 A2]. cbn [run].
      destruct (call_meaning c A1) as [(N & _ & G)|(N & _ & e & St & G)]; rewrite G.
      + left. split; [constructor; exact N|reflexivity].
      + destruct (IH A2 (b ++ [e])) as [(X & R)|(X & l & R & F)].
        * left. split; [constructor 2; exact X|exact R].
        * right. split; [intros Y; inversion Y; subst; contradiction|]. exists (e :: l).
          split; [rewrite R, <- app_assoc; reflexivity|constructor; assumption].
  Qed.
  Lemma selector_made_spec c cs : Forall builder_value (flat_map arguments (c :: cs)) ->
    (selector_made c cs = Panic <-> Exists no_arguments (c :: cs))
    /\ (forall e, selector_made c cs <> Err e)
    /\ forall sel, selector_made c cs = Ok sel -> Forall2 (stands_for f64_str) (c :: cs) sel.
  Proof.
    intros B. assert (A : Forall (fun b => b <> []) (flat_map arguments (c :: cs))).
    { eapply Forall_impl; [|exact B]. exact builder_value_nonempty. }
    cbn [flat_map] in A. apply Forall_app in A as [A1 A2]. unfold selector_made.
    destruct (call_meaning c A1) as [(N & S & _)|(N & (e & S & St) & _)]; rewrite S.
    - split; [split; [intros _; constructor; exact N|reflexivity]|]. split; discriminate.
    - destruct (selector_run cs A2 [e]) as [(X & R)|(X & l & R & F)]; rewrite R.
      + split; [split; [intros _; constructor 2; exact X|reflexivity]|]. split; discriminate.
      + cbn [app selector_of]. split; [split; [discriminate|intros Y; inversion Y; subst; contradiction]|]. split; [discriminate|].
        intros sel E. injection E as <-. constructor; assumption.
  Qed.
End Text.

(** ** Attributes *)
Definition path_do (p : list path_segment) (c : path_call) : list path_segment :=
  match c with PPath l => l | PSegment s => p ++ [s] | PFor m => p ++ [segment_of m] end.
Lemma path_said_from cs : forall p,
  fold_left path_do cs p = (if existsb (fun c => match c with PPath _ => true | _ => false end) cs then [] else p) ++ path_said cs.
Proof.
  induction cs as [|c cs IH]; intros p; [cbn; rewrite app_nil_r; reflexivity|]. cbn [fold_left existsb path_said]. rewrite IH.
  destruct (existsb _ cs); [rewrite orb_true_r; reflexivity|]. rewrite orb_false_r.
  destruct c as [l|s|m]; cbn [path_do]; [reflexivity|rewrite <- app_assoc; reflexivity|]. rewrite <- app_assoc. destruct m; reflexivity.
Qed.
Lemma path_said_fold cs : fold_left path_do cs [] = path_said cs.
Proof. rewrite path_said_from. destruct (existsb _ cs); reflexivity. Qed.
Definition said_comparison (c : attribute_call) : list comparison_ :=
  match c with
  | APath _ => []
  | c => match at_comparison (attribute_do (Attribute (Key [] []) None) c) with Some x => [x] | None => [] end
  end.
Lemma attribute_run cs : forall a,
  fold_left attribute_do cs a
  = Attribute (Key (key_id (at_key a)) (fold_left path_do (attribute_path_calls cs) (key_path (at_key a))))
              (fold_left (fun _ y => y) (map Some (flat_map said_comparison cs)) (at_comparison a)).
Proof.
  induction cs as [|c cs IH]; intros a; [destruct a as [[i p] c]; reflexivity|]. cbn [fold_left]. rewrite IH.
  destruct c as [[p|p|m]|c|r rhs ci|rhs ci|r rhs|r rhs]; try reflexivity; destruct r; reflexivity.
Qed.
Lemma said_reading cs : map reading (flat_map said_comparison cs) = comparisons_said cs.
Proof.
  induction cs as [|c cs IH]; [reflexivity|]. cbn [flat_map comparisons_said]. rewrite map_app, IH. f_equal.
  destruct c as [p|c|r rhs ci|rhs ci|r rhs|r rhs]; try reflexivity; [destruct r, ci; reflexivity|destruct rhs, ci; reflexivity|destruct r; reflexivity|destruct r; reflexivity].
Qed.
Lemma latest_map {A B} (f : A -> B) l : latest (map f l) = option_map f (latest l).
Proof. unfold latest. rewrite <- map_rev. destruct (rev l); reflexivity. Qed.
Lemma latest_comparison cs c :
  option_map reading (fold_left (fun _ y => y) (map Some (flat_map said_comparison cs)) c)
  = match latest (comparisons_said cs) with Some r => Some r | None => option_map reading c end.
Proof.
  rewrite <- said_reading, latest_map. destruct (flat_map said_comparison cs) as [|x l]; [reflexivity|].
  cbn [map fold_left]. rewrite fold_latest. cbn [option_map]. revert x. induction l as [|y l IH]; intros x; [reflexivity|]. cbn. apply IH.
Qed.

(** ** Scoped attributes *)
Section Scoped.
  Variable f64_str : Z -> str.
  Notation said := (assertions_said (fun n => SvText (number_display f64_str n))).
  Lemma scoped_run cs : forall b,
    (sab_key b = None /\ scoped_path_calls cs <> [] /\ run (scoped_do f64_str) b cs = Panic)
    \/ ((sab_key b <> None \/ scoped_path_calls cs = []) /\ exists l,
        run (scoped_do f64_str) b cs = Ok (SAB (option_map (fun k => Key (key_id k) (fold_left path_do (scoped_path_calls cs) (key_path k))) (sab_key b)) (sab_assertions b ++ l))
        /\ map assertion_reading l = said cs).
  Proof.
    induction cs as [|c cs IH]; intros b.
    - right. split; [right; reflexivity|]. exists []. destruct b as [[[i p]|] l]; cbn; rewrite app_nil_r; split; reflexivity.
    - assert (S : forall b' l0, scoped_do f64_str b c = Ok b' -> scoped_path_calls [c] = [] -> sab_key b' = sab_key b -> sab_assertions b' = sab_assertions b ++ l0 ->
        map assertion_reading l0 = said [c] ->
        (sab_key b = None /\ scoped_path_calls (c :: cs) <> [] /\ run (scoped_do f64_str) b (c :: cs) = Panic)
    \/ ((sab_key b <> None \/ scoped_path_calls (c :: cs) = []) /\ exists l,
        run (scoped_do f64_str) b (c :: cs) = Ok (SAB (option_map (fun k => Key (key_id k) (fold_left path_do (scoped_path_calls (c :: cs)) (key_path k))) (sab_key b)) (sab_assertions b ++ l))
        /\ map assertion_reading l = said (c :: cs))).
      { intros b' l0 E P K As Rd. cbn [run]. rewrite E.
        change (scoped_path_calls (c :: cs)) with (match c with SPath p => [p] | _ => [] end ++ scoped_path_calls cs).
        change (said (c :: cs)) with (assertions_said (fun n => SvText (number_display f64_str n)) ([c] ++ cs)).
        unfold scoped_path_calls in P. cbn [flat_map] in P. rewrite app_nil_r in P. rewrite P. cbn [app].
        destruct (IH b') as [(Kn & Pn & R)|(Kn & l & R & M)].
        - left. rewrite <- K. split; [exact Kn|]. split; [exact Pn|exact R].
        - right. rewrite <- K. split; [exact Kn|]. exists (l0 ++ l). rewrite R, As, <- app_assoc. split; [reflexivity|].
          rewrite map_app, Rd, M. unfold assertions_said. cbn [flat_map]. rewrite app_nil_r. reflexivity. }
      assert (T : forall p, c = SPath p ->
        (sab_key b = None /\ scoped_path_calls (c :: cs) <> [] /\ run (scoped_do f64_str) b (c :: cs) = Panic)
    \/ ((sab_key b <> None \/ scoped_path_calls (c :: cs) = []) /\ exists l,
        run (scoped_do f64_str) b (c :: cs) = Ok (SAB (option_map (fun k => Key (key_id k) (fold_left path_do (scoped_path_calls (c :: cs)) (key_path k))) (sab_key b)) (sab_assertions b ++ l))
        /\ map assertion_reading l = said (c :: cs))).
      { intros p ->. destruct (sab_key b) as [k|] eqn:K.
        - right. split; [left; discriminate|].
          assert (E : scoped_do f64_str b (SPath p) = Ok (SAB (Some (Key (key_id k) (path_do (key_path k) p))) (sab_assertions b))).
          { destruct p; cbn [scoped_do]; unfold sab_path, sab_path_segment; rewrite K; reflexivity. }
          cbn [run]. rewrite E. destruct (IH (SAB (Some (Key (key_id k) (path_do (key_path k) p))) (sab_assertions b))) as [(Kn & _)|(_ & l & R & M)]; [discriminate|].
          exists l. split; [rewrite R; reflexivity|exact M].
        - left. split; [reflexivity|]. split; [discriminate|]. cbn [run].
          destruct p; cbn [scoped_do]; unfold sab_path, sab_path_segment; rewrite K; reflexivity. }
      destruct c as [p|a|r l v ci|l v|r l n|e l v|e l v]; [eapply T; reflexivity| | | | | |];
        try destruct r; try destruct e; (eapply S; [reflexivity|reflexivity|reflexivity|reflexivity|]); try destruct ci; try destruct v; reflexivity.
  Qed.
  Lemma scoped_made_spec s cs :
    (scoped_made f64_str s cs = Panic <-> said cs = [] \/ (s = SDefault /\ scoped_path_calls cs <> []))
    /\ (forall e, scoped_made f64_str s cs <> Err e)
    /\ forall sel, scoped_made f64_str s cs = Ok sel ->
       exists x, sel = [XScoped x]
         /\ map assertion_reading (sc_assertions x) = said cs
         /\ sc_key x = match s with SDefault => None | SNamed n => Some (Key (attribute_name n) (path_said (scoped_path_calls cs))) end.
  Proof.
    unfold scoped_made. destruct (scoped_run cs (scoped_started s)) as [(K & P & R)|(K & l & R & M)]; rewrite R.
    - assert (s = SDefault) by (destruct s as [|[]]; try reflexivity; discriminate K). split; [tauto|]. split; discriminate.
    - assert (As : sab_assertions (scoped_started s) = []) by (destruct s as [|[]]; reflexivity). rewrite As. cbn [app].
      unfold sab_selector, sab_scoped. cbn [sab_assertions]. destruct l as [|a l].
      + cbn in M. rewrite <- M. cbn. split; [tauto|]. split; discriminate.
      + cbn [rbind selector_of sb_from sab_key]. split; [split; [discriminate|]|].
        * rewrite <- M. intros [X|[-> P]]; [discriminate|]. destruct K as [K|K]; [exfalso; apply K; reflexivity|contradiction].
        * split; [discriminate|]. intros sel E. injection E as <-. eexists. split; [reflexivity|]. cbn [sc_assertions sc_key]. split; [exact M|].
          destruct s as [|[]]; cbn; rewrite ?path_said_fold; reflexivity.
  Qed.
End Scoped.
