(** The graph of a whole model. *)
From Verif.Model Require Import Rdf.
From Verif.Spec Require Import IdentitySpec RdfSpec.
From Verif.Proofs Require Import BaseFacts HashMapFacts ModelFacts IdentityFacts UrnFacts RdfFacts RdfKeepFacts.

Section Describe.
  Context {H : Hasher}.
  Variable f64_str : Z -> str.
  Variable m : model.
  Variable model_iri : option iri.
  Hypothesis OK : model_ok m.
  Hypothesis V : model_valid m.
  Hypothesis NI : forall i s, model_iri = Some i -> In s (resolved m) -> i <> shape_to_iri (ts_id s).

  Let subject : term := match model_iri with None => TBlank 0 | Some i => TIri i end.
  Let first : nat := match model_iri with None => 1 | Some _ => 0 end.
  Let head_statements : list statement :=
    [St subject (smithy "smithy_version") (literal (lit "1.0")); St subject a_type (TIri (smithy "Model"))].

  Lemma resolved_In s : In s (resolved m) <-> In s (shapes m) /\ is_resolved s = true.
  Proof. apply filter_In. Qed.
  Lemma ids_nodup : NoDup (map ts_id (shapes m)).
  Proof.
    destruct OK as [[K [D _]] _]. unfold shapes, hm_values. revert K D. generalize (m_shapes m). intros l K D.
    induction l as [|[k s] l IH]; [constructor|]. destruct D as [D1 D2]. cbn. constructor.
    - intros I. apply in_map_iff in I as (s' & E & I). apply in_map_iff in I as ([k' s''] & E' & I). cbn in E'. subst s''.
      destruct (K k s (or_introl eq_refl)) as [-> _]. destruct (K k' s' (or_intror I)) as [Ek _].
      specialize (D1 _ _ I). rewrite Ek, E in D1. rewrite (eqv_refl _ sid_key_equiv) in D1. discriminate D1.
    - apply IH; [|exact D2]. intros k' s' I. apply K. now right.
  Qed.
  Lemma urns_nodup : NoDup (map urn (filter is_resolved (shapes m))).
  Proof.
    assert (Q : forall l, (forall s, In s l -> is_resolved s = true -> valid_id (ts_id s)) -> NoDup (map ts_id l) -> NoDup (map urn (filter is_resolved l))).
    { induction l as [|s l IH]; intros Vs N; [constructor|]. cbn in N. inversion N as [|? ? N1 N2]; subst. cbn.
      destruct (is_resolved s) eqn:R; [|apply IH; [intros; apply Vs; [now right|assumption]|exact N2]].
      cbn. constructor; [|apply IH; [intros; apply Vs; [now right|assumption]|exact N2]].
      intros I. apply in_map_iff in I as (s' & E & I). apply filter_In in I as [I R'].
      assert (E' : named (ts_id s') = named (ts_id s)) by (unfold named; unfold urn in E; congruence).
      apply named_inj in E'; [|apply Vs; [now right|assumption]|apply Vs; [now left|assumption]].
      apply N1. rewrite <- E'. apply in_map, I. }
    apply Q; [|exact ids_nodup]. intros s I R. apply V, resolved_In. split; assumption.
  Qed.

  Lemma graph_is : exists L n', all_statements f64_str subject (shapes m) first = (L, n')
    /\ model_to_rdf f64_str m model_iri = (Graph (head_statements ++ L) n', None).
  Proof.
    destruct (all_statements f64_str subject (shapes m) first) as [L n'] eqn:E. exists L, n'. split; [reflexivity|].
    unfold model_to_rdf, head_statements. unfold subject, first in E |- *.
    destruct model_iri as [i|]; cbn [g_blank]; rewrite walk_put;
      cbn [g_insert g_next g_statements]; rewrite E; reflexivity.
  Qed.
  Lemma subject_below : below_node subject first.
  Proof. unfold below_node, subject, first. destruct model_iri; intros k E; [discriminate|injection E as <-; lia]. Qed.
  Lemma subject_not_urn s : In s (shapes m) -> is_resolved s = true -> subject <> urn s.
  Proof.
    intros I R E. unfold subject, urn in E. destruct model_iri as [i|] eqn:M; [|discriminate E].
    injection E as E. apply (NI i s eq_refl); [apply resolved_In; auto|exact E].
  Qed.

  Lemma described :
    exists g, model_to_rdf f64_str m model_iri = (g, None)
      /\ (forall s, In s (resolved m) -> says (g_statements g) (urn s) (shape_description f64_str s))
      /\ says (g_statements g) subject
           ((smithy "smithy_version", text "1.0") :: (a_type, class "Model")
            :: map (fun s => (smithy "shape", named (ts_id s))) (resolved m))
      /\ (forall st, In st (g_statements g) ->
            st_subject st = subject \/ (exists s, In s (resolved m) /\ st_subject st = urn s)
            \/ exists n, st_subject st = TBlank n).
  Proof.
    destruct graph_is as (L & n' & E & G). exists (Graph (head_statements ++ L) n'). split; [exact G|].
    destruct (all_range f64_str subject _ _ _ _ E) as (Ln & R). cbn [g_statements].
    assert (HL : forall st, In st head_statements -> st_subject st = subject) by (intros st [<-|[<-|[]]]; reflexivity).
    split; [|split].
    - intros s I. apply resolved_In in I as [I Rs].
      apply (all_says f64_str subject (head_statements ++ L) (shapes m) first L n' E); auto using subject_below, urns_nodup, subject_not_urn.
      + split; [intros st X; apply in_or_app; now right|].
        intros k q t K X. apply in_app_or in X as [X|X]; [|exact X]. apply HL in X. cbn in X. symmetry in X.
        apply subject_below in X. lia.
      + intros s1 q t I1 R1 X. apply in_app_or in X as [X|X]; [|exact X]. apply HL in X. cbn in X. symmetry in X.
        now apply subject_not_urn in X.
    - split.
      + intros p o [X|[X|X]].
        * injection X as <- <-. exists (literal (lit "1.0")). split; [now left|]. constructor. discriminate.
        * injection X as <- <-. exists (TIri (smithy "Model")). split; [now (right; left)|]. constructor. discriminate.
        * apply in_map_iff in X as (s & X & I). injection X as <- <-. apply resolved_In in I as [I Rs].
          exists (urn s). split; [apply in_or_app; right; exact (all_starts f64_str subject _ _ _ _ E s I Rs)|].
          constructor. discriminate.
      + intros p t X. apply in_app_or in X as [X|X].
        * destruct X as [X|[X|[]]].
          -- injection X as <- <-. exists (text "1.0"). split; [now left|]. constructor. discriminate.
          -- injection X as <- <-. exists (class "Model"). split; [now (right; left)|]. constructor. discriminate.
        * destruct (R _ X) as [(s & I & Rs & Y)|[(s & I & Rs & Y)|(k & Y & K)]].
          -- injection Y as -> ->. exists (named (ts_id s)). split.
             ++ right. right. apply in_map_iff. exists s. split; [reflexivity|]. apply resolved_In. auto.
             ++ constructor. discriminate.
          -- cbn in Y. now apply subject_not_urn in Y.
          -- cbn in Y. apply subject_below in Y. lia.
    - intros st X. apply in_app_or in X as [X|X]; [left; apply HL, X|].
      destruct (R _ X) as [(s & I & Rs & ->)|[(s & I & Rs & Y)|(k & Y & K)]].
      + now left.
      + right. left. exists s. split; [apply resolved_In; auto|exact Y].
      + right. right. eauto.
  Qed.
End Describe.

