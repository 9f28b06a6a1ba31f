(** JSON text: models written to text and read back. *)
From Coq Require Import Lia Sorted Permutation.
From Verif.Model Require Import JsonText.
From Verif.Spec Require Import IdentitySpec ModelSpec IoSpec JsonSpec JsonTextSpec.
From Verif.Proofs Require Import BaseFacts IdentityFacts IoFacts HashMapFacts JsonFacts JsonTextFacts JsonTextValues JsonTextWrite.

Section Printing.
  Variables (f64_parse : str -> option Z) (f64_text : Z -> str).
  Notation printable := (printable f64_parse f64_text).
  Notation value_printable := (value_printable f64_parse f64_text).
  Notation traits_printable := (traits_printable f64_parse f64_text).
  Notation entry_printable n := (fun kv : str * json => is_text (fst kv) /\ printable n (snd kv)).

  Lemma object_printable n l : Forall (entry_printable n) l -> printable (S n) (JObject (bm_from_list l)).
  Proof.
    intros F. constructor; [apply bm_from_list_sorted|]. apply Forall_forall. intros x I. apply bm_from_list_In in I. exact (proj1 (Forall_forall _ _) F x I).
  Qed.
  Lemma value_written n : forall v j, value_printable n v -> write_value v = Ok j -> printable n j.
  Proof.
    induction n as [|n IH]; intros v j P E; inversion P; subst; cbn [write_value] in E;
      try (injection E as <-; constructor; (assumption || (unfold i64 in *; lia) || idtac));
      try (destruct (f64_is_nan b || f64_is_inf b); [discriminate E|]; injection E as <-; constructor; assumption).
    - apply rbind_ok in E as (js & E & [= <-]). apply rmap_ok in E. constructor.
      match goal with F : Forall _ l |- _ => revert F end. clear P. induction E as [|x y l js X _ IHE]; intros F; constructor; inversion F; subst.
      + eapply IH; eassumption.
      + apply IHE. assumption.
    - apply rbind_ok in E as (js & E & [= <-]). apply rmap_ok in E. apply object_printable.
      match goal with F : Forall _ m |- _ => revert F end. clear P. induction E as [|[k x] y l js X _ IHE]; intros F; constructor; inversion F as [|? ? [T V] F']; subst.
      + cbn [fst snd] in *. apply rbind_ok in X as (j & X & [= <-]). split; [exact T|eapply IH; eassumption].
      + apply IHE. assumption.
  Qed.
  Lemma valid_entry n i j : valid_id i -> printable n j -> entry_printable n (sid_display i, j).
  Proof. intros V P. split; [apply id_is_text, V|exact P]. Qed.
  Lemma key_entry n (k : string) j : Forall (fun c => (code c < 128)%N) (lit k) -> printable n j -> entry_printable n (lit k, j).
  Proof. intros L P. split; [apply ascii_text, L|exact P]. Qed.
  Ltac key := split; [cbn [fst]; ascii|cbn [snd]].
  Lemma name_printable n s : Forall (fun c => (code c < 128)%N) s -> printable n (JString s).
  Proof. intros L. constructor. apply ascii_text, L. Qed.
  Lemma id_printable n i : valid_id i -> printable n (JString (sid_display i)).
  Proof. intros V. constructor. apply id_is_text, V. Qed.
  Lemma reference_printable n i : valid_id i -> printable (S n) (write_reference i).
  Proof.
    intros V. apply (object_printable n [(lit "target", JString (sid_display i))]). constructor; [|constructor]. key. apply id_printable, V.
  Qed.
  Lemma traits_written n ts j : traits_writable ts -> traits_printable n ts -> 1 <= n -> write_traits ts = Ok j -> printable (S n) j.
  Proof.
    intros W P L E. unfold write_traits in E. apply rbind_ok in E as (l & E & [= <-]). apply rmap_ok in E. apply object_printable.
    unfold traits_writable in W. unfold JsonTextSpec.traits_printable in P.
    induction E as [|[i o] y l js X _ IHE]; constructor; inversion W as [|? ? [V _] W']; inversion P as [|? ? Q P']; subst; [|apply IHE; assumption].
    cbn [fst snd] in *. apply rbind_ok in X as (j & X & [= <-]). apply valid_entry; [exact V|]. destruct o as [v|].
    - eapply value_written; eassumption.
    - injection X as <-. destruct n; [lia|]. constructor; [constructor|constructor].
  Qed.
  Lemma traits_field_written n ts l : traits_writable ts -> traits_printable n ts -> 1 <= n -> traits_field ts = Ok l -> Forall (entry_printable (S n)) l.
  Proof.
    intros W P L E. unfold traits_field in E. destruct ts as [|t ts]; [injection E as <-; constructor|].
    apply rbind_ok in E as (j & E & [= <-]). constructor; [|constructor]. key. eapply traits_written; eassumption.
  Qed.
  Lemma member_written n m j : member_writable m -> traits_printable n (ms_traits m) -> 1 <= n -> write_member m = Ok j -> printable (S (S n)) j.
  Proof.
    intros [V W] P L E. unfold write_member in E. apply rbind_ok in E as (l & E & [= <-]). apply object_printable. constructor.
    - key. apply id_printable, V.
    - eapply traits_field_written; eassumption.
  Qed.
  Lemma members_written n ms l :
    Forall (fun e => fst e = ms_id (snd e) /\ is_identifier (fst e) /\ member_writable (snd e)) ms ->
    Forall (fun e => traits_printable n (ms_traits (snd e))) ms -> 1 <= n ->
    members_field ms = Ok l -> Forall (entry_printable (S (S (S n)))) l.
  Proof.
    intros W P L E. unfold members_field in E. destruct ms as [|e0 ms0]; [injection E as <-; constructor|].
    set (ms := e0 :: ms0) in *. apply rbind_ok in E as (j & E & [= <-]). constructor; [|constructor]. key. unfold write_members in E.
    apply rbind_ok in E as (js & E & [= <-]). apply rmap_ok in E. apply object_printable. clearbody ms.
    induction E as [|[k m] y ms js X _ IHE]; constructor; inversion W as [|? ? (K & I & V) W']; inversion P as [|? ? Q P']; subst; [|apply IHE; assumption].
    cbn [fst snd] in *. apply rbind_ok in X as (j & X & [= <-]). subst k. split; [apply identifier_text, I|]. cbn [snd]. eapply member_written; eassumption.
  Qed.
  Lemma opt_written n k o : Forall (fun c => (code c < 128)%N) (lit k) -> opt_valid o -> Forall (entry_printable (S n)) (opt_field k o).
  Proof.
    intros L V. destruct o as [i|]; [|constructor]. constructor; [|constructor]. apply key_entry; [exact L|]. apply reference_printable, V.
  Qed.
  Lemma ids_written n k l : Forall (fun c => (code c < 128)%N) (lit k) -> Forall valid_id l -> Forall (entry_printable (S (S n))) (ids_field k l).
  Proof.
    intros L V. destruct l as [|i l]; [constructor|]. constructor; [|constructor]. apply key_entry; [exact L|]. constructor.
    apply Forall_map. eapply Forall_impl; [|exact V]. intros x. apply reference_printable.
  Qed.
  Lemma type_written n s : Forall (fun c => (code c < 128)%N) s -> entry_printable n (type_field s).
  Proof. intros L. unfold type_field. key. apply name_printable, L. Qed.
  Ltac low := repeat (apply Forall_cons; [reflexivity|]); apply Forall_nil.
  Lemma body_written b l : body_writable b -> body_printable f64_parse f64_text b -> write_body b = Ok l -> Forall (entry_printable (deepest - 3)) l.
  Proof.
    change (deepest - 3) with (S (S (S 121))).
    intros W P E. destruct b as [s|m|m|k v|ms|ms|s|o|r|]; cbn [write_body body_writable body_printable] in *;
      change (deepest - 5) with (S 121) in *; change (deepest - 6) with 121 in *.
    - injection E as <-. constructor; [|constructor]. apply type_written. destruct s; low.
    - apply rbind_ok in E as (j & E & [= <-]). constructor; [apply type_written; low|]. constructor; [|constructor]. key. eapply member_written; [apply W|exact P|lia|exact E].
    - apply rbind_ok in E as (j & E & [= <-]). constructor; [apply type_written; low|]. constructor; [|constructor]. key. eapply member_written; [apply W|exact P|lia|exact E].
    - apply rbind_ok in E as (jk & Ek & E). apply rbind_ok in E as (jv & Ev & [= <-]).
      constructor; [apply type_written; low|]. constructor; [|constructor; [|constructor]]; key.
      + eapply member_written; [exact (proj1 W)|exact (proj1 P)|lia|exact Ek].
      + eapply member_written; [exact (proj2 W)|exact (proj2 P)|lia|exact Ev].
    - apply rbind_ok in E as (f & E & [= <-]). constructor; [apply type_written; low|]. eapply members_written; [exact W|exact P|lia|exact E].
    - apply rbind_ok in E as (f & E & [= <-]). constructor; [apply type_written; low|]. eapply members_written; [exact W|exact P|lia|exact E].
    - destruct W as (_ & W1 & W2 & W3). injection E as <-. constructor; [apply type_written; low|].
      constructor; [key; constructor; exact P|]. apply Forall_app. split; [apply ids_written; [low|exact W1]|].
      apply Forall_app. split; [apply ids_written; [low|exact W2]|]. unfold renames_field. destruct (sv_renames s) as [|e0 l0] eqn:R; [constructor|].
      constructor; [|constructor]. key. apply object_printable. apply Forall_map. eapply Forall_impl; [|exact W3]. intros [i x] [V I]. cbn [fst snd] in *.
      apply valid_entry; [exact V|]. constructor. apply identifier_text, I.
    - destruct W as (W1 & W2 & W3). injection E as <-. constructor; [apply type_written; low|].
      repeat (apply Forall_app; split); [apply opt_written; [low|assumption]..|]. apply ids_written; [low|exact W3].
    - destruct W as (W0 & W1 & W2 & W3 & W4 & W5 & W6 & W7 & W8 & W9). injection E as <-. constructor; [apply type_written; low|].
      apply Forall_app. split.
      + unfold identifiers_field. destruct (rs_identifiers r) as [|e0 l0] eqn:R; [constructor|].
        constructor; [|constructor]. key. apply object_printable. apply Forall_map. eapply Forall_impl; [|exact W0]. intros [x i] [I V]. cbn [fst snd] in *.
        split; [apply identifier_text, I|]. cbn [snd]. apply reference_printable, V.
      + repeat (apply Forall_app; split); first [apply opt_written; [low|assumption]|apply ids_written; [low|assumption]].
    - injection E as <-. constructor; [|constructor]. apply type_written. low.
  Qed.

  Lemma model_written `{Hasher} m j : model_writable m -> model_printable f64_parse f64_text m -> model_to_json m = Ok j -> printable deepest j.
  Proof.
    intros (_ & _ & WS) (PM & PS) E. unfold model_to_json in E. apply rbind_ok in E as (md & EM & E). apply rbind_ok in E as (sh & ES & [= <-]).
    change deepest with (S 126). apply object_printable. constructor; [key; apply name_printable; low|]. apply Forall_app. split.
    - unfold write_metadata in EM. destruct (m_metadata m) as [|e0 l0] eqn:MD; [injection EM as <-; constructor|]. rewrite <- MD in *. clear e0 l0 MD.
      apply rbind_ok in EM as (l & EM & [= <-]). apply rmap_ok in EM. constructor; [|constructor]. key.
      change 126 with (S 125). apply object_printable. change (deepest - 2) with 125 in PM.
      induction EM as [|[k v] y md l X _ IHE]; constructor; inversion PM as [|? ? [T V] PM']; subst; [|apply IHE; assumption].
      cbn [fst snd] in *. apply rbind_ok in X as (j & X & [= <-]). split; [exact T|]. cbn [snd]. eapply value_written; eassumption.
    - constructor; [|constructor]. key. unfold write_shapes in ES. apply rbind_ok in ES as (l & ES & [= <-]). apply rmap_ok in ES.
      change 126 with (S 125). apply object_printable. unfold shapes, hm_values in ES. change (deepest - 4) with 123 in PS.
      remember (m_shapes m) as ms eqn:Q. clear Q. remember (map snd ms) as vs eqn:Q. revert ms Q WS PS.
      induction ES as [|s y vs l X _ IHE]; intros ms Q WS PS; [constructor|]. destruct ms as [|[i s'] ms]; [discriminate Q|]. injection Q as -> Q.
      inversion WS as [|? ? (V & WT & WB & _) WS']; inversion PS as [|? ? [PT PB] PS']; subst. constructor; [|eapply IHE; [reflexivity|assumption..]].
      cbn [fst snd] in *. apply rbind_ok in X as (j & X & [= <-]). apply valid_entry; [exact V|].
      unfold write_shape in X. apply rbind_ok in X as (ts & XT & X). apply rbind_ok in X as (b & XB & [= <-]).
      change 125 with (S 124). apply object_printable. apply Forall_app. split.
      + change 124 with (S 123). eapply traits_field_written; [exact WT|exact PT|lia|exact XT].
      + exact (body_written _ _ WB PB XB).
  Qed.
End Printing.
