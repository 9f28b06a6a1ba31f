(** JSON text: white space, numbers and strings are read as RFC 8259 says. *)
From Coq Require Import Lia ZifyN ZifyBool Sorted.
From Verif.Model Require Import JsonText.
From Verif.Spec Require Import IoSpec JsonSpec JsonTextSpec.
From Verif.Proofs Require Import BaseFacts IoFacts HashMapFacts JsonFacts JsonCanonFacts.

Lemma code_ch c : ch_N c = code c.
Proof. reflexivity. Qed.
Lemma code_inj a b : code a = code b -> a = b.
Proof. intros E. rewrite <- (ascii_N_embedding a), <- (ascii_N_embedding b). unfold code in E. rewrite E. reflexivity. Qed.
Lemma code_bound c : (code c < 256)%N.
Proof. apply N_ascii_bounded. Qed.
Lemma code_ascii n : (n < 256)%N -> code (ascii_of_N n) = n.
Proof. apply N_ascii_embedding. Qed.
Lemma eqb_code a b : Ascii.eqb a b = (code a =? code b)%N.
Proof.
  destruct (Ascii.eqb_spec a b) as [->|N]; [rewrite N.eqb_refl; reflexivity|].
  symmetry. apply N.eqb_neq. intros E. apply N, code_inj, E.
Qed.

(** ** White space *)
Lemma is_ws_spec c : is_ws c = true <-> In (code c) [32; 9; 10; 13]%N.
Proof.
  unfold is_ws. rewrite code_ch. split.
  - intros E. cbn [In]. lia.
  - intros [E|[E|[E|[E|[]]]]]; rewrite <- E; reflexivity.
Qed.
Lemma skip_ws_blank w s : blank w -> skip_ws (w ++ s) = skip_ws s.
Proof. induction 1 as [|c w I _ IH]; [reflexivity|]. cbn [app skip_ws]. apply is_ws_spec in I. rewrite I. exact IH. Qed.
Lemma skip_ws_cons c s : is_ws c = false -> skip_ws (c :: s) = c :: s.
Proof. intros E. cbn [skip_ws]. rewrite E. reflexivity. Qed.
Lemma skip_ws_split s : exists w, s = w ++ skip_ws s /\ blank w /\ forall c r, skip_ws s = c :: r -> is_ws c = false.
Proof.
  induction s as [|c s (w & E & B & N)].
  - exists []. split; [reflexivity|]. split; [constructor|]. discriminate.
  - cbn [skip_ws]. destruct (is_ws c) eqn:W.
    + exists (c :: w). split; [cbn [app]; f_equal; exact E|]. split; [|exact N]. constructor; [apply is_ws_spec, W|exact B].
    + exists []. split; [reflexivity|]. split; [constructor|]. intros c' r [= <- _]. exact W.
Qed.
Lemma blank_skip w : blank w -> skip_ws w = [].
Proof. intros B. rewrite <- (app_nil_r w). rewrite skip_ws_blank by exact B. reflexivity. Qed.
Lemma skip_nil_blank s : skip_ws s = [] -> blank s.
Proof. intros E. destruct (skip_ws_split s) as (w & S & B & _). rewrite E, app_nil_r in S. subst. exact B. Qed.

(** ** Numbers *)
Lemma is_digit_spec c : is_digit c = true <-> digit c.
Proof. unfold is_digit, in_range, digit. rewrite code_ch. lia. Qed.
Lemma digits_value_decimal s : digits_value s = decimal s.
Proof. reflexivity. Qed.
(** What follows is not a digit. *)
Definition no_digit (s : str) : Prop := match s with c :: _ => is_digit c = false | [] => True end.
Lemma span_digits_app d r : Forall digit d -> no_digit r -> span_digits (d ++ r) = (d, r).
Proof.
  intros F N. induction F as [|c d D _ IH]; cbn [app].
  - destruct r as [|c r]; [reflexivity|]. cbn [no_digit] in N. cbn [span_digits]. rewrite N. reflexivity.
  - cbn [span_digits]. apply is_digit_spec in D. rewrite D, IH. reflexivity.
Qed.
Lemma span_digits_split s : forall d r, span_digits s = (d, r) -> s = d ++ r /\ Forall digit d /\ no_digit r.
Proof.
  induction s as [|c s IH]; intros d r E; cbn [span_digits] in E.
  - injection E as <- <-. repeat split; constructor.
  - destruct (is_digit c) eqn:D.
    + destruct (span_digits s) as [d' r']. injection E as <- <-. destruct (IH _ _ eq_refl) as (-> & F & N).
      split; [reflexivity|]. split; [|exact N]. constructor; [apply is_digit_spec, D|exact F].
    + injection E as <- <-. split; [reflexivity|]. split; [constructor|exact D].
Qed.
Lemma read_natural_app i r : natural i -> no_digit r -> read_natural (i ++ r) = Some (i, r).
Proof.
  intros [->|[[NE F] Z]] N; cbn [app].
  - change (lit "0" ++ r) with ("0"%char :: r). cbn [read_natural Ascii.eqb]. change (Ascii.eqb "0" "0") with true. cbv iota.
    destruct r as [|c r]; [reflexivity|]. cbn [no_digit] in N. rewrite N. reflexivity.
  - destruct i as [|c i]; [destruct (NE eq_refl)|]. cbn [app read_natural]. destruct (Ascii.eqb_spec c "0") as [->|Z']; [destruct (Z eq_refl)|].
    assert (D : is_digit c = true) by (apply is_digit_spec; inversion F; assumption). rewrite D.
    change (c :: i ++ r) with ((c :: i) ++ r). rewrite span_digits_app by assumption. reflexivity.
Qed.
Lemma read_natural_split s i r : read_natural s = Some (i, r) -> s = i ++ r /\ natural i.
Proof.
  destruct s as [|c s]; [discriminate|]. cbn [read_natural]. destruct (Ascii.eqb_spec c "0") as [->|Z].
  - intros E. assert (([] ++ ["0"%char], s) = (i, r)) as [= <- <-].
    { destruct s as [|d s]; [|destruct (is_digit d); [discriminate E|]]; injection E as <- <-; reflexivity. }
    split; [reflexivity|left; reflexivity].
  - destruct (is_digit c) eqn:D; [|discriminate]. intros E0. assert (E : span_digits (c :: s) = (i, r)) by congruence. clear E0. destruct (span_digits_split _ _ _ E) as (S & F & _). split; [exact S|]. right.
    assert (NE : i <> []).
    { intros ->. cbn [span_digits] in E. rewrite D in E. destruct (span_digits s). discriminate E. }
    split; [split; assumption|]. destruct i as [|x i]; [destruct (NE eq_refl)|]. injection S as <- _. cbn. congruence.
Qed.
Definition head_not (l : list ascii) (s : str) : Prop := match s with c :: _ => ~ In c l | [] => True end.
Lemma read_fraction_app f r : fraction f -> no_digit r -> head_not ["."%char] r -> read_fraction (f ++ r) = Some (f, r).
Proof.
  intros [->|(d & -> & NE & F)] N H; cbn [app].
  - destruct r as [|c r]; [reflexivity|]. cbn [read_fraction]. destruct (Ascii.eqb_spec c ".") as [->|]; [|reflexivity].
    destruct H. left; reflexivity.
  - change ((lit "." ++ d) ++ r) with ("."%char :: d ++ r). cbn [read_fraction]. change (Ascii.eqb "." ".") with true. cbv iota.
    rewrite span_digits_app by assumption. destruct d; [destruct (NE eq_refl)|reflexivity].
Qed.
Lemma read_fraction_split s f r : read_fraction s = Some (f, r) -> s = f ++ r /\ fraction f.
Proof.
  destruct s as [|c s]; [intros [= <- <-]; split; [reflexivity|left; reflexivity]|]. cbn [read_fraction].
  destruct (Ascii.eqb_spec c ".") as [->|].
  - destruct (span_digits s) as [d r'] eqn:E. destruct (span_digits_split _ _ _ E) as (S & F & _). destruct d as [|x d]; [discriminate|].
    intros [= <- <-]. split; [rewrite S; reflexivity|]. right. exists (x :: d). split; [reflexivity|]. split; [discriminate|exact F].
  - intros [= <- <-]. split; [reflexivity|left; reflexivity].
Qed.
Lemma read_exponent_app e r : exponent e -> no_digit r -> head_not ["e"; "E"]%char r -> read_exponent (e ++ r) = Some (e, r).
Proof.
  intros [->|(m & sg & d & -> & M & S & NE & F)] N H; cbn [app].
  - destruct r as [|c r]; [reflexivity|]. cbn [read_exponent]. cbn [head_not In] in H.
    destruct (Ascii.eqb_spec c "e") as [->|]; [destruct H; left; reflexivity|].
    destruct (Ascii.eqb_spec c "E") as [->|]; [destruct H; right; left; reflexivity|]. reflexivity.
  - destruct d as [|x d]; [destruct (NE eq_refl)|].
    assert (X : Ascii.eqb x "+" = false /\ Ascii.eqb x "-" = false).
    { assert (D : digit x) by (inversion F; assumption). unfold digit in D. rewrite !eqb_code. change (code "+") with 43%N. change (code "-") with 45%N. split; apply N.eqb_neq; lia. }
    destruct X as [X1 X2]. assert (D := span_digits_app (x :: d) r F N). cbn [app] in D.
    assert (Q : (Ascii.eqb "e" "e" = true /\ Ascii.eqb "E" "e" = false /\ Ascii.eqb "E" "E" = true /\ Ascii.eqb "+" "+" = true
                 /\ Ascii.eqb "-" "+" = false /\ Ascii.eqb "-" "-" = true)%char) by (repeat split).
    destruct Q as (Q1 & Q2 & Q3 & Q4 & Q5 & Q6).
    destruct M as [-> | ->], S as [-> |[-> | ->]]; cbn [lit list_ascii_of_string app read_exponent];
      rewrite ?Q1, ?Q2, ?Q3, ?Q4, ?Q5, ?Q6, ?X1, ?X2; cbn [orb]; cbv iota; rewrite D; reflexivity.
Qed.
Lemma read_exponent_split s e r : read_exponent s = Some (e, r) -> s = e ++ r /\ exponent e.
Proof.
  destruct s as [|c s]; [intros [= <- <-]; split; [reflexivity|left; reflexivity]|]. cbn [read_exponent].
  destruct (Ascii.eqb c "e" || Ascii.eqb c "E")%bool eqn:M.
  - assert (M' : [c] = lit "e" \/ [c] = lit "E").
    { apply orb_true_iff in M as [M|M]; apply Ascii.eqb_eq in M; subst; [left|right]; reflexivity. }
    set (p := match s with x :: s2 => if Ascii.eqb x "+" || Ascii.eqb x "-" then ([x], s2) else ([], s) | [] => ([], []) end).
    assert (P : exists sg s2, p = (sg, s2) /\ s = sg ++ s2 /\ (sg = [] \/ sg = lit "+" \/ sg = lit "-")).
    { unfold p. destruct s as [|x s2]; [exists [], []; auto|]. destruct (Ascii.eqb x "+" || Ascii.eqb x "-") eqn:X; [|exists [], (x :: s2); auto].
      exists [x], s2. split; [reflexivity|]. split; [reflexivity|]. right.
      apply orb_true_iff in X as [X|X]; apply Ascii.eqb_eq in X; subst; [left|right]; reflexivity. }
    destruct P as (sg & s2 & -> & -> & SG). destruct (span_digits s2) as [d r'] eqn:E. destruct (span_digits_split _ _ _ E) as (S & F & _).
    destruct d as [|x d]; [discriminate|]. intros [= <- <-]. split; [rewrite S; cbn [app]; rewrite <- app_assoc; reflexivity|].
    right. exists [c], sg, (x :: d). split; [reflexivity|]. split; [exact M'|]. split; [exact SG|]. split; [discriminate|exact F].
  - intros [= <- <-]. split; [reflexivity|left; reflexivity].
Qed.

(** What may follow a number. *)
Definition number_ends (r : str) : Prop := no_digit r /\ head_not ["."; "e"; "E"]%char r.
Lemma no_digit_point r : no_digit (lit "." ++ r).
Proof. reflexivity. Qed.
Section Floats.
  Variable f64_parse : str -> option Z.
  Notation says_num := (number_says f64_parse).
  Notation read_number := (read_number f64_parse).

  Lemma exponent_start e r : exponent e -> number_ends r -> no_digit (e ++ r) /\ head_not ["."%char] (e ++ r).
  Proof.
    intros [->|(m & sg & d & -> & M & _)] [N H].
    - cbn [app]. split; [exact N|]. destruct r as [|c r]; [exact I|]. cbn [head_not In] in *. tauto.
    - destruct M as [-> | ->]; (split; [reflexivity|]); cbn; intros [E|[]]; discriminate E.
  Qed.
  Lemma fraction_start f e r : fraction f -> exponent e -> number_ends r -> no_digit (f ++ e ++ r).
  Proof.
    intros [->|(d & -> & _)] E R; [exact (proj1 (exponent_start e r E R))|reflexivity].
  Qed.
  Lemma read_number_app (neg : bool) i f e r (sign := if neg then ["-"%char] else []) j :
    natural i -> fraction f -> exponent e -> number_ends r ->
    match f ++ e, integer_value neg (decimal i) with [], Some n => j = JInt n | _, _ => float_value f64_parse (sign ++ i ++ f ++ e) = Some j end ->
    read_number neg (i ++ f ++ e ++ r) = Some (j, r).
  Proof.
    intros I F E R J. unfold JsonText.read_number. rewrite read_natural_app; [|exact I|apply fraction_start; assumption].
    rewrite read_fraction_app; [|exact F|apply exponent_start; assumption..].
    rewrite read_exponent_app; [|exact E|apply R|]. 2:{ destruct R as [_ H]. destruct r as [|c r]; [exact Logic.I|]. cbn [head_not In] in *. tauto. }
    change digits_value with decimal. change (if neg then ["-"%char] else []) with sign.
    destruct (f ++ e); [destruct (integer_value neg (decimal i)); [subst; reflexivity|]|]; rewrite J; reflexivity.
  Qed.
  Lemma decimal_bound s : Forall digit s -> forall a, (0 <= a)%Z -> (0 <= fold_left (fun n c => n * 10 + (Z.of_N (code c) - 48))%Z s a)%Z.
  Proof.
    induction 1 as [|c s D _ IH]; intros a A; cbn [fold_left]; [exact A|]. apply IH. unfold digit in D. lia.
  Qed.
  Lemma natural_pos i : natural i -> (0 <= decimal i)%Z.
  Proof. intros [->|[[_ F] _]]; [reflexivity|]. apply decimal_bound; [exact F|lia]. Qed.

  (** A number is read, whatever stands after it. *)
  Lemma number_complete t j r : says_num t j -> number_ends r ->
    (exists t', t = "-"%char :: t' /\ read_number true (t' ++ r) = Some (j, r))
    \/ (exists c t', t = c :: t' /\ is_digit c = true /\ read_number false (t ++ r) = Some (j, r)).
  Proof.
    assert (D : forall i x, natural i -> exists c t', i ++ x = c :: t' /\ is_digit c = true).
    { intros i x [->|[[NE F] _]]; [exists "0"%char, x; split; reflexivity|]. destruct i as [|c i]; [destruct (NE eq_refl)|].
      exists c, (i ++ x). split; [reflexivity|]. inversion F; subst. apply is_digit_spec. assumption. }
    intros [i N L|i N L|sign i f e b S N F E X P] R.
    - right. destruct (D i [] N) as (c & t' & E & C). rewrite app_nil_r in E. exists c, t'. split; [exact E|]. split; [exact C|].
      assert (G := read_number_app false i [] [] r (JInt (decimal i)) N). cbn [app] in G. apply G; [left; reflexivity|left; reflexivity|exact R|].
      unfold integer_value. apply Z.leb_le in L. rewrite L. reflexivity.
    - left. exists i. split; [reflexivity|]. assert (G := read_number_app true i [] [] r (JInt (- decimal i)) N). cbn [app] in G.
      apply G; [left; reflexivity|left; reflexivity|exact R|].
      unfold integer_value. replace ((0 <? decimal i)%Z && (decimal i <=? 0x8000000000000000)%Z) with true by lia. reflexivity.
    - assert (FV : float_value f64_parse (sign ++ i ++ f ++ e) = Some (JFloat b)) by (unfold float_value; rewrite P; reflexivity).
      assert (PO := natural_pos i N).
      assert (G : forall neg : bool, sign = (if neg then ["-"%char] else []) ->
                  match f ++ e, integer_value neg (decimal i) with [], Some n => JFloat b = JInt n | _, _ => float_value f64_parse ((if neg then ["-"%char] else []) ++ i ++ f ++ e) = Some (JFloat b) end).
      { intros neg Q. destruct (f ++ e) as [|x l] eqn:FE; [|rewrite <- FE, <- Q; rewrite <- FE in FV; exact FV].
        apply app_eq_nil in FE as [-> ->].
        replace (integer_value neg (decimal i)) with (@None Z); [rewrite <- Q; exact FV|].
        unfold integer_value. destruct X as [X|[X|[[X Y]|[X Y]]]]; try congruence.
        - destruct neg; [congruence|]. replace (decimal i <=? 0xFFFFFFFFFFFFFFFF)%Z with false by lia. reflexivity.
        - destruct neg; [|rewrite X in Q; discriminate Q]. replace ((0 <? decimal i)%Z && (decimal i <=? 0x8000000000000000)%Z) with false by lia. reflexivity. }
      destruct S as [-> | ->].
      + right. destruct (D i (f ++ e) N) as (c & t' & Q & C). exists c, t'. split; [exact Q|]. split; [exact C|].
        cbn [app]. rewrite <- !app_assoc. apply read_number_app; try assumption. apply (G false eq_refl).
      + left. exists (i ++ f ++ e). split; [reflexivity|]. rewrite <- !app_assoc. apply read_number_app; try assumption. apply (G true eq_refl).
  Qed.
  (** Only numbers are read. *)
  Lemma number_sound (neg : bool) s j r : read_number neg s = Some (j, r) ->
    exists t, s = t ++ r /\ says_num ((if neg then lit "-" else []) ++ t) j.
  Proof.
    unfold JsonText.read_number. destruct (read_natural s) as [[i s1]|] eqn:E1; [|discriminate]. destruct (read_natural_split _ _ _ E1) as (-> & N).
    destruct (read_fraction s1) as [[f s2]|] eqn:E2; [|discriminate]. destruct (read_fraction_split _ _ _ E2) as (-> & F).
    destruct (read_exponent s2) as [[e s3]|] eqn:E3; [|discriminate]. destruct (read_exponent_split _ _ _ E3) as (-> & E).
    change digits_value with decimal. set (sign := if neg then ["-"%char] else []). assert (PO := natural_pos i N).
    assert (FL : forall b, f64_parse (sign ++ i ++ f ++ e) = Some b -> f ++ e <> [] \/ integer_value neg (decimal i) = None ->
                 says_num ((if neg then lit "-" else []) ++ (i ++ f ++ e)) (JFloat b)).
    { intros b P X. change (if neg then lit "-" else []) with sign. apply ns_float; try assumption.
      - destruct neg; [right|left]; reflexivity.
      - destruct f as [|x f]; [|left; discriminate]. destruct e as [|x e]; [|right; left; discriminate].
        destruct X as [X|X]; [destruct (X eq_refl)|]. right. right. unfold integer_value in X. destruct neg.
        + right. split; [reflexivity|]. destruct ((0 <? decimal i)%Z && (decimal i <=? 0x8000000000000000)%Z) eqn:Q; [discriminate|]. lia.
        + left. split; [reflexivity|]. destruct (decimal i <=? 0xFFFFFFFFFFFFFFFF)%Z eqn:Q; [discriminate|]. lia. }
    assert (FR : forall j' r', match float_value f64_parse (sign ++ i ++ f ++ e) with Some j => Some (j, s3) | None => None end = Some (j', r') ->
                 f ++ e <> [] \/ integer_value neg (decimal i) = None ->
                 exists t, i ++ f ++ e ++ s3 = t ++ r' /\ says_num ((if neg then lit "-" else []) ++ t) j').
    { intros j' r'. unfold float_value. destruct (f64_parse (sign ++ i ++ f ++ e)) as [b|] eqn:P; [|discriminate]. intros [= <- <-] X.
      exists (i ++ f ++ e). split; [rewrite <- !app_assoc; reflexivity|]. apply FL; [reflexivity|exact X]. }
    destruct (f ++ e) as [|x l] eqn:FE.
    - destruct (integer_value neg (decimal i)) as [n|] eqn:V.
      + intros [= <- <-]. apply app_eq_nil in FE as [-> ->]. exists i. split; [reflexivity|]. unfold integer_value in V. destruct neg.
        * destruct ((0 <? decimal i)%Z && (decimal i <=? 0x8000000000000000)%Z) eqn:Q; [|discriminate]. injection V as <-. apply ns_negative; [exact N|lia].
        * destruct (decimal i <=? 0xFFFFFFFFFFFFFFFF)%Z eqn:Q; [|discriminate]. injection V as <-. apply ns_natural; [exact N|lia].
      + intros Q. apply FR; [exact Q|right; reflexivity].
    - intros Q. apply FR; [exact Q|left; discriminate].
  Qed.
End Floats.

(** ** Strings *)
Lemma hex_digit_spec c n : JsonText.hex_digit c = Some n <-> hex c n.
Proof.
  unfold JsonText.hex_digit. rewrite code_ch. split.
  - destruct (is_digit c) eqn:D; [intros [= <-]; apply hex_digit, is_digit_spec, D|]. unfold in_range. rewrite !code_ch.
    destruct ((97 <=? code c) && (code c <=? 102))%N eqn:L.
    + intros [= <-]. replace (code c - 87)%N with (code c - 97 + 10)%N by lia. apply hex_lower. lia.
    + destruct ((65 <=? code c) && (code c <=? 70))%N eqn:U; [|discriminate].
      intros [= <-]. replace (code c - 55)%N with (code c - 65 + 10)%N by lia. apply hex_upper. lia.
  - intros [c' D|c' L|c' U].
    + apply is_digit_spec in D. rewrite D. reflexivity.
    + unfold is_digit, in_range. rewrite !code_ch. replace ((48 <=? code c') && (code c' <=? 57))%N with false by lia.
      replace ((97 <=? code c') && (code c' <=? 102))%N with true by lia. f_equal. lia.
    + unfold is_digit, in_range. rewrite !code_ch. replace ((48 <=? code c') && (code c' <=? 57))%N with false by lia.
      replace ((97 <=? code c') && (code c' <=? 102))%N with false by lia. replace ((65 <=? code c') && (code c' <=? 70))%N with true by lia. f_equal. lia.
Qed.
Lemma hex_bound c n : hex c n -> (n < 16)%N.
Proof. intros [c' D|c' L|c' U]; [unfold digit in D|..]; lia. Qed.
Lemma hex4_spec a b c d n : JsonText.hex4 a b c d = Some n <-> hex4 [a; b; c; d] n.
Proof.
  unfold JsonText.hex4. split.
  - destruct (JsonText.hex_digit a) as [x|] eqn:A; [|discriminate]. destruct (JsonText.hex_digit b) as [y|] eqn:B; [|discriminate].
    destruct (JsonText.hex_digit c) as [z|] eqn:C; [|discriminate]. destruct (JsonText.hex_digit d) as [w|] eqn:D; [|discriminate].
    intros [= <-]. apply hex_digit_spec in A, B, C, D.
    replace (((x * 16 + y) * 16 + z) * 16 + w)%N with (4096 * x + 256 * y + 16 * z + w)%N by lia. constructor; assumption.
  - intros H. inversion H as [? ? ? ? x y z w A B C D]; subst. apply hex_digit_spec in A, B, C, D. rewrite A, B, C, D. f_equal. lia.
Qed.
Lemma hex4_form h n : hex4 h n -> exists a b c d, h = [a; b; c; d] /\ JsonText.hex4 a b c d = Some n /\ (n < 65536)%N.
Proof.
  intros H. inversion H as [a b c d x y z w A B C D]; subst. exists a, b, c, d. split; [reflexivity|]. split; [apply hex4_spec, H|].
  apply hex_bound in A, B, C, D. lia.
Qed.
Lemma utf8_char_encode n : utf8_char n = encode n.
Proof.
  unfold utf8_char, encode.
  destruct (n <? 128)%N eqn:A; [replace (n <=? 127)%N with true by lia; reflexivity|replace (n <=? 127)%N with false by lia].
  destruct (n <? 2048)%N eqn:B; [replace (n <=? 2047)%N with true by lia; reflexivity|replace (n <=? 2047)%N with false by lia].
  destruct (n <? 65536)%N eqn:C; [replace (n <=? 65535)%N with true by lia; reflexivity|replace (n <=? 65535)%N with false by lia]. reflexivity.
Qed.

Lemma code_quote : code quote_ch = 34%N.
Proof. reflexivity. Qed.
Lemma code_backslash : code backslash = 92%N.
Proof. reflexivity. Qed.
Lemma string_quote x : string_bytes (quote_ch :: x) = Some ([], x).
Proof. reflexivity. Qed.
Lemma string_plain c x : (32 <= code c)%N -> code c <> 34%N -> code c <> 92%N -> string_bytes (c :: x) = after [c] (string_bytes x).
Proof.
  intros L Q B. cbn [string_bytes]. rewrite !eqb_code, code_quote, code_backslash.
  replace (code c =? 34)%N with false by lia. replace (code c =? 92)%N with false by lia. rewrite code_ch. replace (code c <? 32)%N with false by lia. reflexivity.
Qed.
Lemma string_escape e c x : Ascii.eqb e "u" = false -> short_escape e = Some c -> string_bytes (backslash :: e :: x) = after [c] (string_bytes x).
Proof.
  intros U S. cbn [string_bytes]. change (Ascii.eqb backslash quote_ch) with false. rewrite Ascii.eqb_refl. cbv iota. rewrite U, S. reflexivity.
Qed.
Lemma string_unicode a b c d n x : JsonText.hex4 a b c d = Some n -> scalar n -> (n < 65536)%N ->
  string_bytes (backslash :: "u"%char :: a :: b :: c :: d :: x) = after (encode n) (string_bytes x).
Proof.
  intros H S L. cbn [string_bytes]. change (Ascii.eqb backslash quote_ch) with false. rewrite !Ascii.eqb_refl. cbv iota. rewrite H.
  unfold scalar in S. replace ((56320 <=? n) && (n <=? 57343))%N with false by lia. replace ((55296 <=? n) && (n <=? 56319))%N with false by lia.
  rewrite utf8_char_encode. reflexivity.
Qed.
Lemma string_pair a b c d n a' b' c' d' n' x :
  JsonText.hex4 a b c d = Some n -> (0xD800 <= n <= 0xDBFF)%N -> JsonText.hex4 a' b' c' d' = Some n' -> (0xDC00 <= n' <= 0xDFFF)%N ->
  string_bytes (backslash :: "u"%char :: a :: b :: c :: d :: backslash :: "u"%char :: a' :: b' :: c' :: d' :: x)
  = after (encode (0x10000 + (n - 0xD800) * 0x400 + (n' - 0xDC00))) (string_bytes x).
Proof.
  intros H L H' L'. cbn [string_bytes]. change (Ascii.eqb backslash quote_ch) with false. rewrite !Ascii.eqb_refl. cbn [andb]. cbv iota. rewrite H.
  replace ((56320 <=? n) && (n <=? 57343))%N with false by lia. replace ((55296 <=? n) && (n <=? 56319))%N with true by lia. rewrite H'.
  replace ((n' <? 56320) || (57343 <? n'))%N with false by lia. rewrite utf8_char_encode. do 2 f_equal. lia.
Qed.
Definition short_escapes : list (ascii * ascii) :=
  [("""", ch 34); ("\", ch 92); ("/", ch 47); ("b", ch 8); ("f", ch 12); ("n", ch 10); ("r", ch 13); ("t", ch 9)]%char.
Lemma short_escape_spec e c : short_escape e = Some c <-> In (e, c) short_escapes.
Proof.
  split.
  - unfold short_escape, short_escapes.
    repeat match goal with |- context [Ascii.eqb e ?x] => destruct (Ascii.eqb_spec e x) as [->|]; [intros [= <-]; cbn; tauto|] end. discriminate.
  - intros I. unfold short_escapes in I. cbn [In] in I.
    repeat (destruct I as [[= <- <-]|I]; [reflexivity|]). destruct I.
Qed.
Lemma short_escape_u e c : short_escape e = Some c -> Ascii.eqb e "u" = false.
Proof. intros S. destruct (Ascii.eqb_spec e "u") as [->|]; [discriminate S|reflexivity]. Qed.

Lemma piece_complete t s x : piece_of_string t s -> string_bytes (t ++ x) = after s (string_bytes x).
Proof.
  intros [c L Q B|e c I|h n H S|h n h' n' H L H' L'].
  - apply string_plain; assumption.
  - apply short_escape_spec in I. cbn [app escape_start]. change (ch 92) with backslash. apply string_escape; [eapply short_escape_u, I|exact I].
  - apply hex4_form in H as (a & b & c & d & -> & H & L). cbn [app unicode_start]. change (ch 92) with backslash. change (ch 117) with "u"%char.
    apply string_unicode; assumption.
  - apply hex4_form in H as (a & b & c & d & -> & H & _). apply hex4_form in H' as (a' & b' & c' & d' & -> & H' & _).
    cbn [app unicode_start]. change (ch 92) with backslash. change (ch 117) with "u"%char. apply string_pair; assumption.
Qed.
Lemma pieces_complete t s x : pieces_of_string t s -> string_bytes (t ++ quote_ch :: x) = Some (s, x).
Proof.
  induction 1 as [|t s ts ss P _ IH]; [reflexivity|]. rewrite <- app_assoc, (piece_complete t s) by exact P. rewrite IH. reflexivity.
Qed.
Lemma after_Some x r t rest : after x r = Some (t, rest) -> exists t', r = Some (t', rest : str) /\ t = x ++ t'.
Proof. destruct r as [[t' r]|]; [|discriminate]. intros [= <- <-]. eauto. Qed.
Lemma pieces_sound n : forall s, length s < n -> forall t r, string_bytes s = Some (t, r) ->
  exists body, s = body ++ quote_ch :: r /\ pieces_of_string body t.
Proof.
  induction n as [|n IH]; intros s L t r E; [lia|]. destruct s as [|c s]; [discriminate E|].
  assert (G : forall x p y, c :: s = p ++ y -> p <> [] -> piece_of_string p x -> after x (string_bytes y) = Some (t, r) ->
              exists body, c :: s = body ++ quote_ch :: r /\ pieces_of_string body t).
  { intros x p y S NE P A. apply after_Some in A as (t' & A & ->). destruct (IH y) with (t := t') (r := r) as (body & -> & B); [|exact A|].
    - apply (f_equal (@length ascii)) in S. rewrite app_length in S. destruct p; [destruct (NE eq_refl)|]. cbn [length] in *. lia.
    - exists (p ++ body). split; [rewrite S, <- app_assoc; reflexivity|]. constructor; assumption. }
  cbn [string_bytes] in E. destruct (Ascii.eqb_spec c quote_ch) as [->|NQ].
  { injection E as <- <-. exists []. split; [reflexivity|constructor]. }
  destruct (Ascii.eqb_spec c backslash) as [->|NB].
  2:{ destruct (ch_N c <? 32)%N eqn:L32; [discriminate|]. apply (G [c] [c] s); [reflexivity|discriminate| |exact E].
      rewrite code_ch in L32. constructor; [lia|intros Q; apply NQ, code_inj; rewrite Q; reflexivity|intros Q; apply NB, code_inj; rewrite Q; reflexivity]. }
  destruct s as [|e s]; [discriminate E|]. destruct (Ascii.eqb_spec e "u") as [->|NU].
  2:{ destruct (short_escape e) as [x|] eqn:S; [|discriminate E]. apply (G [x] [backslash; e] s); [reflexivity|discriminate| |exact E].
      apply (ps_escape e x), short_escape_spec, S. }
  destruct s as [|h1 [|h2 [|h3 [|h4 s]]]]; try discriminate E. destruct (JsonText.hex4 h1 h2 h3 h4) as [m|] eqn:H; [|discriminate E].
  apply hex4_spec in H. assert (LM : (m < 65536)%N) by (apply hex4_form in H as (? & ? & ? & ? & _ & _ & LM); exact LM).
  destruct ((56320 <=? m) && (m <=? 57343))%N eqn:LO; [discriminate E|]. destruct ((55296 <=? m) && (m <=? 56319))%N eqn:HI.
  - destruct s as [|b [|u [|g1 [|g2 [|g3 [|g4 s]]]]]]; try discriminate E.
    destruct (Ascii.eqb b backslash && Ascii.eqb u "u") eqn:BU; [|discriminate E]. apply andb_true_iff in BU as [B U]. apply Ascii.eqb_eq in B, U. subst b u.
    destruct (JsonText.hex4 g1 g2 g3 g4) as [m2|] eqn:H2; [|discriminate E]. apply hex4_spec in H2.
    destruct ((m2 <? 56320) || (57343 <? m2))%N eqn:R2; [discriminate E|]. rewrite utf8_char_encode in E.
    apply (G (encode ((m - 55296) * 1024 + (m2 - 56320) + 65536)) (unicode_start ++ [h1; h2; h3; h4] ++ unicode_start ++ [g1; g2; g3; g4]) s); [reflexivity|discriminate| |exact E].
    replace ((m - 55296) * 1024 + (m2 - 56320) + 65536)%N with (0x10000 + (m - 0xD800) * 0x400 + (m2 - 0xDC00))%N by lia.
    apply ps_pair; try assumption; lia.
  - rewrite utf8_char_encode in E. apply (G (encode m) (unicode_start ++ [h1; h2; h3; h4]) s); [reflexivity|discriminate| |exact E].
    apply ps_unicode; [exact H|]. unfold scalar. lia.
Qed.
Lemma string_complete t s r : string_says t s -> exists t', t = quote_ch :: t' /\ read_string (t' ++ r) = Some (s, r).
Proof.
  intros (body & -> & P & T). exists (body ++ [quote_ch]). split; [reflexivity|]. unfold read_string.
  rewrite <- app_assoc. cbn [app]. rewrite (pieces_complete _ _ _ P). destruct (from_utf8_spec s) as [[_ ->]|[N _]]; [reflexivity|contradiction].
Qed.
Lemma string_sound s t r : read_string s = Some (t, r) -> exists t', s = t' ++ r /\ string_says (quote_ch :: t') t.
Proof.
  unfold read_string. destruct (string_bytes s) as [[x rest]|] eqn:E; [|discriminate]. destruct (pieces_sound (S (length s)) s (Nat.lt_succ_diag_r _) _ _ E) as (body & -> & P).
  destruct (from_utf8_spec x) as [[T ->]|[_ ->]]; [|discriminate]. intros [= <- <-]. exists (body ++ [quote_ch]).
  split; [rewrite <- app_assoc; reflexivity|]. exists body. split; [reflexivity|]. split; assumption.
Qed.
