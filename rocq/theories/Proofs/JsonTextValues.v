(** JSON text: values are read exactly from the texts that say them. *)
From Coq Require Import Lia Sorted Permutation.
From Verif.Model Require Import JsonText.
From Verif.Spec Require Import IoSpec JsonSpec JsonTextSpec.
From Verif.Proofs Require Import BaseFacts IoFacts HashMapFacts JsonFacts JsonCanonFacts JsonTextFacts.

(** ** Objects *)
Lemma last_get_split {V} k (v : V) l : last_get k l = Some v <-> exists before after, l = before ++ (k, v) :: after /\ ~ In k (map fst after).
Proof.
  assert (NI : forall l : list (str * V), last_get k l = None <-> ~ In k (map fst l)).
  { induction l0 as [|[k' w] l0 IH]; cbn [last_get map fst In]; [tauto|]. destruct (last_get k l0) as [x|].
    - split; [discriminate|]. intros N. destruct IH as [_ IH]. specialize (IH ltac:(tauto)). discriminate.
    - destruct IH as [IH _]. specialize (IH eq_refl). destruct (str_eqb k' k) eqn:E.
      + apply str_eqb_eq in E. split; [discriminate|]. intros N. destruct N. left. exact E.
      + split; [|reflexivity]. intros _ [->|I]; [|contradiction]. rewrite str_eqb_refl in E. discriminate. }
  induction l as [|[k' w] l IH]; cbn [last_get].
  - split; [discriminate|]. intros (b & a & E & _). destruct b; discriminate E.
  - destruct (last_get k l) as [x|] eqn:L.
    + rewrite IH. split.
      * intros (b & a & -> & N). exists ((k', w) :: b), a. split; [reflexivity|exact N].
      * intros (b & a & E & N). destruct b as [|y b]; [|cbn [app] in E; injection E as _ E; exists b, a; split; [exact E|exact N]].
        cbn [app] in E. injection E as _ _ E. subst a. apply NI in N. congruence.
    + apply NI in L. destruct (str_eqb k' k) eqn:E.
      * apply str_eqb_eq in E. subst k'. split.
        -- intros [= ->]. exists [], l. split; [reflexivity|exact L].
        -- intros (b & a & E & N). destruct b as [|y b]; cbn [app] in E; [congruence|]. injection E as _ E. subst l.
           destruct L. rewrite map_app. apply in_or_app. right. left. reflexivity.
      * split; [discriminate|]. intros (b & a & Q & N). destruct b as [|y b].
        -- cbn [app] in Q. injection Q as Q _ _. subst k'. rewrite str_eqb_refl in E. discriminate.
        -- cbn [app] in Q. injection Q as _ Q. subst l. destruct L. rewrite map_app. apply in_or_app. right. left. reflexivity.
Qed.
Lemma bm_last_wins {V} (l : list (str * V)) : last_wins l (bm_from_list l).
Proof.
  split; [apply bm_from_list_sorted|]. intros k v. rewrite <- last_get_split, <- bm_get. assert (D := sorted_distinct _ (bm_from_list_sorted l)). split.
  - intros I. apply (hm_get_In str_eqb str_eqb_equiv); [exact D|exact I].
  - intros G. apply hm_get_Some_In in G as (k' & I & E). apply str_eqb_eq in E. subst k'. exact I.
Qed.
Lemma last_wins_unique {V} (l m : list (str * V)) : last_wins l m -> m = bm_from_list l.
Proof.
  intros [S E]. destruct (bm_last_wins l) as [S' E']. apply sorted_perm_eq; [exact S|exact S'|].
  assert (ND : forall x : list (str * V), StronglySorted key_lt x -> NoDup x).
  { induction 1 as [|y x _ IH F]; constructor; [|exact IH]. intros I. apply (proj1 (Forall_forall _ _) F) in I. unfold key_lt in I.
    rewrite (proj2 (str_cmp_eq (fst y) (fst y)) eq_refl) in I. discriminate. }
  apply NoDup_Permutation; [apply ND, S|apply ND, S'|]. intros [k v]. rewrite E, E'. reflexivity.
Qed.

Section Values.
  Variable f64_parse : str -> option Z.
  Notation read_value := (read_json_value f64_parse).
  Notation says := (says f64_parse).
  Notation elements := (elements f64_parse).
  Notation members := (members f64_parse).

  Scheme says_mut := Induction for JsonTextSpec.says Sort Prop
    with elements_mut := Induction for JsonTextSpec.elements Sort Prop
    with members_mut := Induction for JsonTextSpec.members Sort Prop.

  (** What may follow a value: nothing that could belong to a number. *)
  Notation ends := number_ends.
  Lemma ends_blank w r : blank w -> ends r -> ends (w ++ r).
  Proof.
    intros B R. destruct B as [|c w I _]; [exact R|]. cbn [app].
    assert (W : is_ws c = true) by (apply is_ws_spec, I). split; [|intros J]; cbn [In] in *.
    - cbn [no_digit]. destruct (is_digit c) eqn:D; [|reflexivity]. apply is_digit_spec in D. unfold digit in D. destruct I as [I|[I|[I|[I|[]]]]]; lia.
    - destruct J as [<-|[<-|[<-|[]]]]; discriminate W.
  Qed.
  Lemma ends_ch c r : In c [","; "]"; "}"]%char -> ends (c :: r).
  Proof. intros [<-|[<-|[<-|[]]]]; (split; [reflexivity|]); intros [E|[E|[E|[]]]]; discriminate E. Qed.
  Lemma ends_nil : ends [].
  Proof. split; exact I. Qed.

  (** How a value starts. *)
  Definition starts (s : str) : Prop :=
    exists c s', s = c :: s' /\ is_ws c = false /\ Ascii.eqb c "]" = false /\ Ascii.eqb c "}" = false.
  Lemma says_starts n t j : says n t j -> forall r, starts (t ++ r).
  Proof.
    assert (D : forall c, is_digit c = true -> is_ws c = false /\ Ascii.eqb c "]" = false /\ Ascii.eqb c "}" = false).
    { intros c C. apply is_digit_spec in C. unfold digit in C. unfold is_ws. rewrite code_ch, !eqb_code. change (code "]") with 93%N. change (code "}") with 125%N.
      repeat split; lia. }
    destruct 1 as [n|n|n|n t j N|n t s S|n w B|n b l E|n w B|n b e m M L]; intros r; try (eexists _, _; split; [reflexivity|repeat split; fail]).
    - destruct (number_complete f64_parse t j [] N ends_nil) as [(t' & -> & _)|(c & t' & -> & C & _)].
      + eexists _, _; split; [reflexivity|repeat split].
      + eexists _, _; split; [reflexivity|]. apply D, C.
    - destruct (string_complete t s [] S) as (t' & -> & _). eexists _, _; split; [reflexivity|repeat split].
  Qed.
  Lemma skip_starts s : starts s -> skip_ws s = s.
  Proof. intros (c & s' & -> & W & _). apply skip_ws_cons, W. Qed.

  Lemma elements_starts n b l : elements n b l -> forall r, exists w s, b ++ r = w ++ s /\ blank w /\ starts s.
  Proof.
    destruct 1 as [n w t w' j B S B'|n w t w' j rest l B S B' E]; intros r; exists w.
    - exists (t ++ w' ++ r). split; [rewrite <- !app_assoc; reflexivity|]. split; [exact B|]. eapply says_starts, S.
    - exists (t ++ w' ++ lit "," ++ rest ++ r). split; [rewrite <- !app_assoc; reflexivity|]. split; [exact B|]. eapply says_starts, S.
  Qed.
  Lemma members_starts n b l : members n b l -> forall r, exists w s, b ++ r = w ++ quote_ch :: s /\ blank w.
  Proof.
    destruct 1 as [n w k w1 w2 t w' name j B K B1 B2 S B'|n w k w1 w2 t w' name j rest l B K B1 B2 S B' E]; intros r; exists w;
      destruct (string_complete k name [] K) as (k' & -> & _).
    - exists (k' ++ w1 ++ lit ":" ++ w2 ++ t ++ w' ++ r). split; [|exact B]. rewrite <- !app_assoc. reflexivity.
    - exists (k' ++ w1 ++ lit ":" ++ w2 ++ t ++ w' ++ lit "," ++ rest ++ r). split; [|exact B]. rewrite <- !app_assoc. reflexivity.
  Qed.
  (** After a comma the rest is read as from the start. *)
  Lemma elements_comma value N w b s : blank w -> (exists w' s', b = w' ++ s' /\ blank w' /\ starts s') ->
    read_elements value N false (w ++ "," :: b ++ s)%char = read_elements value N true (b ++ s).
  Proof.
    intros B (w' & s' & -> & B' & (c & s'' & -> & W & NB & _)). destruct N as [|N]; [reflexivity|]. cbn [read_elements].
    rewrite skip_ws_blank by exact B. cbn [skip_ws]. change (is_ws ",") with false. cbv iota.
    change (Ascii.eqb "," "]") with false. change (Ascii.eqb "," ",") with true. cbv iota.
    rewrite <- !app_assoc, !skip_ws_blank by exact B'. cbn [app skip_ws]. rewrite W, NB. reflexivity.
  Qed.
  Lemma members_comma value N w b s : blank w -> (exists w' s', b = w' ++ quote_ch :: s' /\ blank w') ->
    read_members value N false (w ++ "," :: b ++ s)%char = read_members value N true (b ++ s).
  Proof.
    intros B (w' & s' & -> & B'). destruct N as [|N]; [reflexivity|]. cbn [read_members].
    rewrite skip_ws_blank by exact B. cbn [skip_ws]. change (is_ws ",") with false. cbv iota.
    change (Ascii.eqb "," "}") with false. change (Ascii.eqb "," ",") with true. cbv iota.
    rewrite <- !app_assoc, !skip_ws_blank by exact B'. cbn [app skip_ws]. change (is_ws quote_ch) with false. cbv iota.
    change (Ascii.eqb quote_ch "}") with false. rewrite Ascii.eqb_refl. reflexivity.
  Qed.

  Lemma says_length n t j : says n t j -> 1 <= length t.
  Proof. intros S. destruct (says_starts _ _ _ S []) as (c & s & E & _). rewrite app_nil_r in E. subst. cbn. lia. Qed.
  Lemma elements_length n b l : elements n b l -> length l <= length b.
  Proof.
    induction 1 as [n w t w' j _ S _|n w t w' j rest l _ S _ _ IH]; apply says_length in S; rewrite !app_length; cbn [length]; lia.
  Qed.
  Lemma members_length n b l : members n b l -> length l <= length b.
  Proof.
    induction 1 as [n w k w1 w2 t w' name j _ _ _ _ S _|n w k w1 w2 t w' name j rest l _ _ _ _ S _ _ IH]; apply says_length in S; rewrite !app_length; cbn [length]; lia.
  Qed.

  Lemma read_value_blank n w s : blank w -> read_value n (w ++ s) = read_value n s.
  Proof. intros B. destruct n; cbn [read_json_value]; rewrite skip_ws_blank by exact B; reflexivity. Qed.

  Ltac letter := repeat match goal with
    | |- context [Ascii.eqb (Ascii ?a ?b ?c ?d ?e ?f ?g ?h) (Ascii ?a' ?b' ?c' ?d' ?e' ?f' ?g' ?h')] =>
        first [ change (Ascii.eqb (Ascii a b c d e f g h) (Ascii a' b' c' d' e' f' g' h')) with true
              | change (Ascii.eqb (Ascii a b c d e f g h) (Ascii a' b' c' d' e' f' g' h')) with false ]; cbv iota
    end.

  Lemma value_open_array d s :
    read_value (S d) ("["%char :: s) =
    match read_elements (read_value d) (S (length s)) true s with Some (js, r) => Some (JArray js, r) | None => None end.
  Proof. reflexivity. Qed.
  Lemma value_open_object d s :
    read_value (S d) ("{"%char :: s) =
    match read_members (read_value d) (S (length s)) true s with Some (kvs, r) => Some (JObject (bm_from_list kvs), r) | None => None end.
  Proof. reflexivity. Qed.
  Lemma value_quote d s :
    read_value d (quote_ch :: s) = match read_string s with Some (t, r) => Some (JString t, r) | None => None end.
  Proof. destruct d; reflexivity. Qed.
  Lemma value_minus d s : read_value d ("-"%char :: s) = read_number f64_parse true s.
  Proof. destruct d; reflexivity. Qed.
  Lemma value_digit d c s : is_digit c = true -> read_value d (c :: s) = read_number f64_parse false (c :: s).
  Proof.
    intros D. assert (B := D). apply is_digit_spec in B. unfold digit in B.
    assert (W : is_ws c = false) by (unfold is_ws; rewrite code_ch; lia).
    assert (N : forall x, In (code x) [110; 116; 102; 45]%N -> Ascii.eqb c x = false).
    { intros x I. rewrite eqb_code. apply N.eqb_neq. cbn [In] in I. lia. }
    destruct d; cbn [read_json_value]; rewrite skip_ws_cons by exact W; rewrite !N by (vm_compute; tauto); rewrite D; reflexivity.
  Qed.

  (** ** Every text that says a value is read as that value *)
  Lemma complete :
    forall n t j, says n t j -> forall r, ends r -> read_value n (t ++ r) = Some (j, r).
  Proof.
    apply (says_mut f64_parse
      (fun n t j _ => forall r, ends r -> read_value n (t ++ r) = Some (j, r))
      (fun n b l _ => forall N r, length l < N -> read_elements (read_value n) N true (b ++ "]"%char :: r) = Some (l, r))
      (fun n b l _ => forall N r, length l < N -> read_members (read_value n) N true (b ++ "}"%char :: r) = Some (l, r))).
    - intros n r R. destruct n; reflexivity.
    - intros n r R. destruct n; reflexivity.
    - intros n r R. destruct n; reflexivity.
    - intros n t j N r R. destruct (number_complete f64_parse t j r N R) as [(t' & -> & E)|(c & t' & -> & C & E)].
      + cbn [app]. rewrite value_minus. exact E.
      + cbn [app] in *. rewrite value_digit by exact C. exact E.
    - intros n t s S r R. destruct (string_complete t s r S) as (t' & -> & E). cbn [app]. rewrite value_quote, E. reflexivity.
    - intros n w B r R. rewrite <- !app_assoc. cbn [app lit list_ascii_of_string]. rewrite value_open_array. cbn [read_elements]. rewrite skip_ws_blank by exact B. reflexivity.
    - intros n b l E IH r R. rewrite <- !app_assoc. cbn [app lit list_ascii_of_string]. rewrite value_open_array, IH; [reflexivity|].
      apply elements_length in E. rewrite app_length. lia.
    - intros n w B r R. rewrite <- !app_assoc. cbn [app lit list_ascii_of_string]. rewrite value_open_object. cbn [read_members]. rewrite skip_ws_blank by exact B. reflexivity.
    - intros n b e m E IH L r R. rewrite <- !app_assoc. cbn [app lit list_ascii_of_string]. rewrite value_open_object, IH.
      + rewrite (last_wins_unique _ _ L). reflexivity.
      + apply members_length in E. rewrite app_length. lia.
    - (* one element *)
      intros n w t w' j B S IH B' N r L. destruct N as [|[|N]]; cbn [length] in L; [lia..|]. rewrite <- !app_assoc.
      remember (Datatypes.S N) as N1. cbn [read_elements]. rewrite skip_ws_blank by exact B.
      destruct (says_starts _ _ _ S (w' ++ "]"%char :: r)) as (c & s & E & W & C & _). rewrite E, skip_ws_cons, C by exact W. rewrite <- E.
      rewrite IH by (apply ends_blank; [exact B'|apply ends_ch; cbn; tauto]). subst N1. cbn [read_elements]. rewrite skip_ws_blank by exact B'. reflexivity.
    - (* more elements *)
      intros n w t w' j rest l B S IH B' E IHE N r L. destruct N as [|N]; cbn [length] in L; [lia|]. rewrite <- !app_assoc.
      cbn [read_elements]. rewrite skip_ws_blank by exact B.
      destruct (says_starts _ _ _ S (w' ++ lit "," ++ rest ++ "]"%char :: r)) as (c & s & Q & W & C & _). rewrite Q, skip_ws_cons, C by exact W. rewrite <- Q.
      rewrite IH by (apply ends_blank; [exact B'|apply ends_ch; cbn; tauto]). cbn [app lit list_ascii_of_string].
      rewrite elements_comma; [|exact B'|].
      + rewrite IHE by lia. reflexivity.
      + destruct (elements_starts _ _ _ E []) as (x & s' & X & BX & SX). rewrite app_nil_r in X. eauto.
    - (* one member *)
      intros n w k w1 w2 t w' name j B K B1 B2 S IH B' N r L. destruct N as [|[|N]]; cbn [length] in L; [lia..|]. rewrite <- !app_assoc.
      remember (Datatypes.S N) as N1. cbn [read_members]. rewrite skip_ws_blank by exact B.
      destruct (string_complete k name (w1 ++ lit ":" ++ w2 ++ t ++ w' ++ "}"%char :: r) K) as (k' & -> & E). cbn [app skip_ws]. change (is_ws quote_ch) with false. cbv iota.
      change (Ascii.eqb quote_ch "}") with false. rewrite Ascii.eqb_refl. cbv iota. rewrite E.
      rewrite skip_ws_blank by exact B1. cbn [app lit list_ascii_of_string skip_ws]. change (is_ws ":") with false. cbv iota. change (Ascii.eqb ":" ":") with true. cbv iota.
      rewrite read_value_blank by exact B2. rewrite IH by (apply ends_blank; [exact B'|apply ends_ch; cbn; tauto]).
      subst N1. cbn [read_members]. rewrite skip_ws_blank by exact B'. reflexivity.
    - (* more members *)
      intros n w k w1 w2 t w' name j rest l B K B1 B2 S IH B' E IHE N r L. destruct N as [|N]; cbn [length] in L; [lia|]. rewrite <- !app_assoc.
      cbn [read_members]. rewrite skip_ws_blank by exact B.
      destruct (string_complete k name (w1 ++ lit ":" ++ w2 ++ t ++ w' ++ lit "," ++ rest ++ "}"%char :: r) K) as (k' & -> & Q). cbn [app skip_ws]. change (is_ws quote_ch) with false. cbv iota.
      change (Ascii.eqb quote_ch "}") with false. rewrite Ascii.eqb_refl. cbv iota. rewrite Q.
      rewrite skip_ws_blank by exact B1. cbn [app lit list_ascii_of_string skip_ws]. change (is_ws ":") with false. cbv iota. change (Ascii.eqb ":" ":") with true. cbv iota.
      rewrite read_value_blank by exact B2. rewrite IH by (apply ends_blank; [exact B'|apply ends_ch; cbn; tauto]). cbn [app lit list_ascii_of_string].
      rewrite members_comma; [|exact B'|].
      + rewrite IHE by lia. reflexivity.
      + destruct (members_starts _ _ _ E []) as (x & s' & X & BX). rewrite app_nil_r in X. eauto.
  Qed.

  (** ** Only such texts are read *)
  Lemma expect_Some x s r : expect x s = Some r -> s = x ++ r.
  Proof.
    revert s. induction x as [|c x IH]; intros s E; [injection E as <-; reflexivity|]. destruct s as [|d s]; [discriminate E|].
    cbn [expect] in E. destruct (Ascii.eqb_spec c d) as [->|]; [|discriminate E]. cbn [app]. f_equal. apply IH, E.
  Qed.
  Definition value_sound (value : str -> option (json * str)) (d : nat) : Prop :=
    forall s j r, value s = Some (j, r) -> exists w t, s = w ++ t ++ r /\ blank w /\ says d t j.
  Lemma elements_sound value d : value_sound value d -> forall N first s l r,
    read_elements value N first s = Some (l, r) ->
    (first = true -> exists b, s = b ++ "]"%char :: r /\ (l = [] /\ blank b \/ elements d b l))
    /\ (first = false -> exists w, blank w /\ (l = [] /\ s = w ++ "]"%char :: r \/ exists b, s = w ++ ","%char :: b ++ "]"%char :: r /\ elements d b l)).
  Proof.
    intros V. induction N as [|N IH]; intros first s l r E; [discriminate E|]. cbn [read_elements] in E.
    assert (One : forall x l, match value x with
                            | Some (j, r) => match read_elements value N false r with Some (js, r) => Some (j :: js, r) | None => None end
                            | None => None end = Some (l, r) -> exists b, x = b ++ "]"%char :: r /\ elements d b l).
    { intros x l0 Q. destruct (value x) as [[j x1]|] eqn:VX; [|discriminate Q]. destruct (V _ _ _ VX) as (w & t & -> & B & S).
      destruct (read_elements value N false x1) as [[js x2]|] eqn:RX; [|discriminate Q]. injection Q as <- <-.
      destruct (IH _ _ _ _ RX) as [_ G]. destruct (G eq_refl) as (w' & B' & [[-> ->]|(b & -> & EL)]).
      - exists (w ++ t ++ w'). split; [rewrite <- !app_assoc; reflexivity|]. constructor; assumption.
      - exists (w ++ t ++ w' ++ lit "," ++ b). split; [rewrite <- !app_assoc; reflexivity|]. constructor; assumption. }
    destruct (skip_ws_split s) as (w & S & B & _). destruct (skip_ws s) as [|c s1]; [discriminate E|]. subst s.
    destruct (Ascii.eqb_spec c "]") as [->|NB].
    - injection E as <- <-. split; intros _.
      + exists w. split; [reflexivity|]. left. split; [reflexivity|exact B].
      + exists w. split; [exact B|]. left. split; reflexivity.
    - destruct first.
      + split; [intros _|discriminate]. destruct (One _ _ E) as (b & -> & EL). exists (w ++ b). split; [rewrite <- app_assoc; reflexivity|]. right.
        destruct EL as [n w0 t w' j B0 S B'|n w0 t w' j rest l B0 S B' EL].
        * rewrite app_assoc. constructor; [apply Forall_app; split; assumption|assumption..].
        * rewrite app_assoc. constructor; [apply Forall_app; split; assumption|assumption..].
      + split; [discriminate|intros _]. destruct (Ascii.eqb_spec c ",") as [->|]; [|discriminate E].
        destruct (skip_ws_split s1) as (w2 & S & B2 & _). destruct (skip_ws s1) as [|c2 s2]; [discriminate E|]. subst s1.
        destruct (Ascii.eqb c2 "]"); [discriminate E|]. destruct (One _ _ E) as (b & -> & EL). exists w. split; [exact B|]. right.
        exists (w2 ++ b). split; [rewrite <- app_assoc; reflexivity|].
        destruct EL as [n w0 t w' j B0 S B'|n w0 t w' j rest l B0 S B' EL].
        * rewrite app_assoc. constructor; [apply Forall_app; split; assumption|assumption..].
        * rewrite app_assoc. constructor; [apply Forall_app; split; assumption|assumption..].
  Qed.
  Lemma members_sound value d : value_sound value d -> forall N first s l r,
    read_members value N first s = Some (l, r) ->
    (first = true -> exists b, s = b ++ "}"%char :: r /\ (l = [] /\ blank b \/ members d b l))
    /\ (first = false -> exists w, blank w /\ (l = [] /\ s = w ++ "}"%char :: r \/ exists b, s = w ++ ","%char :: b ++ "}"%char :: r /\ members d b l)).
  Proof.
    intros V. induction N as [|N IH]; intros first s l r E; [discriminate E|]. cbn [read_members] in E.
    set (key := fun x => match x with
                         | c :: x => if Ascii.eqb c quote_ch then
                             match read_string x with
                             | Some (k, r) =>
                                 match skip_ws r with
                                 | c :: r =>
                                     if Ascii.eqb c ":" then
                                       match value r with
                                       | Some (j, r) => match read_members value N false r with Some (kvs, r) => Some ((k, j) :: kvs, r) | None => None end
                                       | None => None
                                       end
                                     else None
                                 | [] => None
                                 end
                             | None => None
                             end else None
                         | [] => None
                         end).
    assert (E' : match skip_ws s with
                 | [] => None
                 | c :: s1 => if Ascii.eqb c "}" then Some ([], s1) else if first then key (c :: s1) else if Ascii.eqb c "," then key (skip_ws s1) else None
                 end = Some (l, r)) by exact E.
    clear E. rename E' into E.
    assert (One : forall w x l, blank w -> key x = Some (l, r) -> exists b, w ++ x = b ++ "}"%char :: r /\ members d b l).
    { intros w x l0 B Q. unfold key in Q. destruct x as [|q x]; [discriminate Q|]. destruct (Ascii.eqb_spec q quote_ch) as [->|]; [|discriminate Q].
      destruct (read_string x) as [[k y]|] eqn:RS; [|discriminate Q]. destruct (string_sound _ _ _ RS) as (k' & -> & K).
      destruct (skip_ws_split y) as (w1 & S1 & B1 & _). destruct (skip_ws y) as [|c z]; [discriminate Q|]. subst y.
      destruct (Ascii.eqb_spec c ":") as [->|]; [|discriminate Q].
      destruct (value z) as [[j x1]|] eqn:VX; [|discriminate Q]. destruct (V _ _ _ VX) as (w2 & t & -> & B2 & S).
      destruct (read_members value N false x1) as [[js x2]|] eqn:RX; [|discriminate Q]. injection Q as <- <-.
      destruct (IH _ _ _ _ RX) as [_ G]. destruct (G eq_refl) as (w' & B' & [[-> ->]|(b & -> & EL)]).
      - exists (w ++ (quote_ch :: k') ++ w1 ++ lit ":" ++ w2 ++ t ++ w'). split; [rewrite <- !app_assoc; reflexivity|]. constructor; assumption.
      - exists (w ++ (quote_ch :: k') ++ w1 ++ lit ":" ++ w2 ++ t ++ w' ++ lit "," ++ b). split; [rewrite <- !app_assoc; reflexivity|]. constructor; assumption. }
    destruct (skip_ws_split s) as (w & S & B & _). destruct (skip_ws s) as [|c s1]; [discriminate E|]. subst s.
    destruct (Ascii.eqb_spec c "}") as [->|NB].
    - injection E as <- <-. split; intros _.
      + exists w. split; [reflexivity|]. left. split; [reflexivity|exact B].
      + exists w. split; [exact B|]. left. split; reflexivity.
    - destruct first.
      + split; [intros _|discriminate]. destruct (One _ _ _ B E) as (b & Q & EL). exists b. split; [exact Q|]. right. exact EL.
      + split; [discriminate|intros _]. destruct (Ascii.eqb_spec c ",") as [->|]; [|discriminate E].
        destruct (skip_ws_split s1) as (w2 & S & B2 & _). destruct (One _ _ _ B2 E) as (b & Q & EL). exists w. split; [exact B|]. right.
        exists b. split; [rewrite S, Q; reflexivity|exact EL].
  Qed.
  Lemma sound : forall d, value_sound (read_value d) d.
  Proof.
    assert (G : forall d, (forall d', S d' = d -> value_sound (read_value d') d') -> value_sound (read_value d) d).
    { intros d IH s j r E. destruct (skip_ws_split s) as (w & S & B & _). exists w.
      assert (Q : exists t, skip_ws s = t ++ r /\ says d t j).
      2:{ destruct Q as (t & Q & X). exists t. split; [rewrite <- Q; exact S|]. split; assumption. }
      clear w S B.
      assert (Word : forall c x j0 s1, read_word x j0 s1 = Some (j, r) -> says d (c :: lit x) j0 -> exists t, c :: s1 = t ++ r /\ says d t j).
      { intros c x j0 s1 Q X. unfold read_word in Q. destruct (expect (lit x) s1) as [y|] eqn:EX; [|discriminate Q]. injection Q as <- <-.
        apply expect_Some in EX. subst s1. exists (c :: lit x). split; [reflexivity|exact X]. }
      assert (E' : match skip_ws s with
                   | [] => None
                   | c :: s1 =>
                       if Ascii.eqb c "n" then read_word "ull" JNull s1
                       else if Ascii.eqb c "t" then read_word "rue" (JBool true) s1
                       else if Ascii.eqb c "f" then read_word "alse" (JBool false) s1
                       else if Ascii.eqb c "-" then read_number f64_parse true s1
                       else if is_digit c then read_number f64_parse false (c :: s1)
                       else if Ascii.eqb c quote_ch then match read_string s1 with Some (t, r) => Some (JString t, r) | None => None end
                       else if Ascii.eqb c "[" then
                         match d with
                         | 0 => None
                         | S depth => match read_elements (read_value depth) (S (length s1)) true s1 with Some (js, r) => Some (JArray js, r) | None => None end
                         end
                       else if Ascii.eqb c "{" then
                         match d with
                         | 0 => None
                         | S depth => match read_members (read_value depth) (S (length s1)) true s1 with Some (kvs, r) => Some (JObject (bm_from_list kvs), r) | None => None end
                         end
                       else None
                   end = Some (j, r)) by (destruct d; exact E).
      clear E. destruct (skip_ws s) as [|c s1]; [discriminate E'|].
      destruct (Ascii.eqb_spec c "n") as [->|_]; [exact (Word _ _ _ _ E' (says_null _ _))|].
      destruct (Ascii.eqb_spec c "t") as [->|_]; [exact (Word _ _ _ _ E' (says_true _ _))|].
      destruct (Ascii.eqb_spec c "f") as [->|_]; [exact (Word _ _ _ _ E' (says_false _ _))|].
      destruct (Ascii.eqb_spec c "-") as [->|_].
      { destruct (number_sound _ _ _ _ _ E') as (t & -> & N). exists (lit "-" ++ t). split; [reflexivity|]. apply says_number, N. }
      destruct (is_digit c).
      { destruct (number_sound _ _ _ _ _ E') as (t & -> & N). exists t. split; [reflexivity|]. apply says_number, N. }
      destruct (Ascii.eqb_spec c quote_ch) as [->|_].
      { destruct (read_string s1) as [[t y]|] eqn:RS; [|discriminate E']. injection E' as <- <-. destruct (string_sound _ _ _ RS) as (t' & -> & X).
        exists (quote_ch :: t'). split; [reflexivity|]. apply says_string, X. }
      destruct (Ascii.eqb_spec c "[") as [->|_].
      { destruct d as [|d]; [discriminate E'|]. destruct (read_elements (read_value d) (S (length s1)) true s1) as [[js y]|] eqn:RE; [|discriminate E'].
        injection E' as <- <-. destruct (elements_sound _ _ (IH d eq_refl) _ _ _ _ _ RE) as [X _]. destruct (X eq_refl) as (b & -> & [[-> B]|EL]).
        - exists (lit "[" ++ b ++ lit "]"). split; [rewrite <- !app_assoc; reflexivity|]. apply says_empty_array, B.
        - exists (lit "[" ++ b ++ lit "]"). split; [rewrite <- !app_assoc; reflexivity|]. apply says_array, EL. }
      destruct (Ascii.eqb_spec c "{") as [->|_]; [|discriminate E'].
      destruct d as [|d]; [discriminate E'|]. destruct (read_members (read_value d) (S (length s1)) true s1) as [[js y]|] eqn:RE; [|discriminate E'].
      injection E' as <- <-. destruct (members_sound _ _ (IH d eq_refl) _ _ _ _ _ RE) as [X _]. destruct (X eq_refl) as (b & -> & [[-> B]|EL]).
      - exists (lit "{" ++ b ++ lit "}"). split; [rewrite <- !app_assoc; reflexivity|]. apply says_empty_object, B.
      - exists (lit "{" ++ b ++ lit "}"). split; [rewrite <- !app_assoc; reflexivity|]. eapply says_object; [exact EL|apply bm_last_wins]. }
    induction d as [|d IH]; apply G; intros d' E; [discriminate E|]. injection E as ->. exact IH.
  Qed.

  (** ** Whole documents *)
  Lemma document_exact t j : json_from_text f64_parse t = Some j <-> document_says f64_parse t j.
  Proof.
    unfold json_from_text. split.
    - destruct (read_value 127 t) as [[j' r]|] eqn:E; [|discriminate]. destruct (skip_ws r) eqn:W; [|discriminate]. intros [= <-].
      destruct (sound _ _ _ _ E) as (w & t' & -> & B & S). exists w, t', r. split; [reflexivity|]. split; [exact B|]. split; [apply skip_nil_blank, W|exact S].
    - intros (w & t' & w' & -> & B & B' & S). rewrite read_value_blank by exact B.
      change 127 with deepest. rewrite (complete _ _ _ S) by (rewrite <- (app_nil_r w'); apply ends_blank; [exact B'|apply ends_nil]).
      rewrite blank_skip by exact B'. reflexivity.
  Qed.
End Values.
