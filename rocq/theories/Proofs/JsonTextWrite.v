(** JSON text: what is printed says what was to be printed. *)
From Coq Require Import Lia ZifyN ZifyBool Sorted Permutation.
From Verif.Model Require Import JsonText.
From Verif.Spec Require Import IdentitySpec IoSpec JsonSpec JsonTextSpec.
From Verif.Proofs Require Import BaseFacts IdentityFacts IoFacts HashMapFacts JsonFacts JsonTextFacts JsonTextValues.
From Verif.Spec Require SelectorSpec.
From Verif.Proofs Require SelectorFacts.

(** ** ASCII is Unicode *)
Lemma ascii_text s : Forall (fun c => (code c < 128)%N) s -> is_text s.
Proof.
  intros F. exists (map code s). split.
  - intros c I. apply in_map_iff in I as (x & <- & I). apply (proj1 (Forall_forall _ _) F) in I. unfold scalar. lia.
  - induction F as [|c s L _ IH]; [reflexivity|]. cbn [map flat_map]. rewrite <- IH. unfold encode.
    replace (code c <? 128)%N with true by lia. cbn [bytes map app]. unfold code. rewrite ascii_N_embedding. reflexivity.
Qed.
Lemma alpha_low c : is_alpha c = true -> (code c < 128)%N.
Proof. unfold is_alpha, is_upper, is_lower, in_range. rewrite !code_ch. lia. Qed.
Lemma digit_low c : is_digit c = true -> (code c < 128)%N.
Proof. unfold is_digit, in_range. rewrite !code_ch. lia. Qed.
Lemma identifier_low s : is_identifier s -> Forall (fun c => (code c < 128)%N) s.
Proof.
  intros (us & c & r & -> & U & A & R). apply Forall_app. split; [|constructor].
  - eapply Forall_impl; [|exact U]. intros a ->. reflexivity.
  - apply alpha_low, A.
  - eapply Forall_impl; [|exact R]. intros a [H|[H| ->]]; [apply alpha_low, H|apply digit_low, H|reflexivity].
Qed.
Lemma identifier_text s : is_identifier s -> is_text s.
Proof. intros I. apply ascii_text, identifier_low, I. Qed.
Lemma join_low l : Forall is_identifier l -> Forall (fun c => (code c < 128)%N) (join ["."%char] l).
Proof.
  induction 1 as [|x l I F IH]; [constructor|]. cbn [join]. destruct l; [apply identifier_low, I|].
  apply Forall_app. split; [apply identifier_low, I|]. constructor; [reflexivity|]. exact IH.
Qed.
Lemma id_is_text i : valid_id i -> is_text (sid_display i).
Proof.
  intros ((ids & _ & F & N) & I & M). rewrite sid_display_text. apply ascii_text. unfold id_text. rewrite N.
  apply Forall_app. split; [apply join_low, F|]. constructor; [reflexivity|]. apply Forall_app. split; [apply identifier_low, I|].
  destruct (sid_member i) as [m|]; [|constructor]. constructor; [reflexivity|apply identifier_low, M].
Qed.
Ltac ascii := solve [apply ascii_text; repeat (apply Forall_cons; [reflexivity|]); apply Forall_nil].

(** ** Strings *)
Lemma hex_ch_spec n : (n < 16)%N -> hex (hex_ch n) n.
Proof.
  intros L. unfold hex_ch. destruct (n <? 10)%N eqn:T.
  - assert (E : code (ascii_of_N (48 + n)) = (48 + n)%N) by (apply code_ascii; lia).
    replace n with (code (ascii_of_N (48 + n)) - 48)%N at 2 by lia. apply hex_digit. unfold digit. lia.
  - assert (E : code (ascii_of_N (87 + n)) = (87 + n)%N) by (apply code_ascii; lia).
    replace n with (code (ascii_of_N (87 + n)) - 97 + 10)%N at 2 by lia. apply hex_lower. lia.
Qed.
Lemma escape_piece c : piece_of_string (escape_char c) [c].
Proof.
  assert (B := code_bound c). unfold escape_char. rewrite code_ch.
  assert (S : forall n e x, (code c =? n)%N = true -> (n < 256)%N -> x = ch n -> In (e, x) short_escapes -> piece_of_string [backslash; e] [c]).
  { intros n e x Q L -> I. apply N.eqb_eq in Q. replace c with (ch n) by (apply code_inj; rewrite Q; apply code_ascii, L). apply (ps_escape e (ch n) I). }
  destruct (code c =? 34)%N eqn:E1; [eapply (S 34%N quote_ch (ch 34)); [exact E1|lia|reflexivity|cbn; tauto]|].
  destruct (code c =? 92)%N eqn:E2; [eapply (S 92%N backslash (ch 92)); [exact E2|lia|reflexivity|cbn; tauto]|].
  destruct (code c =? 8)%N eqn:E3; [eapply (S 8%N "b"%char (ch 8)); [exact E3|lia|reflexivity|cbn; tauto]|].
  destruct (code c =? 9)%N eqn:E4; [eapply (S 9%N "t"%char (ch 9)); [exact E4|lia|reflexivity|cbn; tauto]|].
  destruct (code c =? 10)%N eqn:E5; [eapply (S 10%N "n"%char (ch 10)); [exact E5|lia|reflexivity|cbn; tauto]|].
  destruct (code c =? 12)%N eqn:E6; [eapply (S 12%N "f"%char (ch 12)); [exact E6|lia|reflexivity|cbn; tauto]|].
  destruct (code c =? 13)%N eqn:E7; [eapply (S 13%N "r"%char (ch 13)); [exact E7|lia|reflexivity|cbn; tauto]|].
  clear S. destruct (code c <? 32)%N eqn:L.
  - assert (E : [c] = encode (code c)).
    { unfold encode. replace (code c <? 128)%N with true by lia. cbn [bytes map]. unfold code. rewrite ascii_N_embedding. reflexivity. }
    rewrite E. change (backslash :: lit "u00" ++ [hex_ch (code c / 16); hex_ch (code c mod 16)])
      with (unicode_start ++ ["0"%char; "0"%char; hex_ch (code c / 16); hex_ch (code c mod 16)]).
    apply ps_unicode; [|unfold scalar; lia].
    assert (D := N.div_mod' (code c) 16). assert (M := N.mod_lt (code c) 16 ltac:(lia)).
    assert (Q : (code c / 16 < 16)%N) by (apply N.div_lt_upper_bound; lia).
    replace (code c) with (4096 * 0 + 256 * 0 + 16 * (code c / 16) + code c mod 16)%N at 3 by lia.
    constructor; [apply (hex_digit "0"%char); split; discriminate|apply (hex_digit "0"%char); split; discriminate|apply hex_ch_spec..]; assumption.
  - apply ps_plain; lia.
Qed.
Lemma string_text_says s : is_text s -> string_says (string_text s) s.
Proof.
  intros T. exists (flat_map escape_char s). split; [reflexivity|]. split; [|exact T]. clear T.
  induction s as [|c s IH]; [constructor|]. cbn [flat_map]. change (c :: s) with ([c] ++ s). constructor; [apply escape_piece|exact IH].
Qed.

(** ** Numbers *)
Lemma whole_natural s : SelectorSpec.whole s -> natural s.
Proof.
  intros [->|(c & r & -> & C & D)]; [left; reflexivity|right]. unfold in_range in C. rewrite code_ch in C.
  split; [split; [discriminate|constructor]|].
  - unfold digit. lia.
  - eapply Forall_impl; [|exact D]. intros a. apply is_digit_spec.
  - cbn. intros [= ->]. discriminate C.
Qed.
Lemma nat_to_str_natural n : (0 <= n)%Z -> natural (nat_to_str n) /\ decimal (nat_to_str n) = n.
Proof. intros L. split; [apply whole_natural, SelectorFacts.nat_to_str_whole, L|apply nat_to_str_val, L]. Qed.

Lemma join_more sep (x y : str) l : join sep (x :: y :: l) = x ++ sep ++ join sep (y :: l).
Proof. reflexivity. Qed.

Section Printing.
  Variables (f64_parse : str -> option Z) (f64_text : Z -> str).
  Notation says := (says f64_parse).
  Notation printable := (printable f64_parse f64_text).
  Notation compact := (compact f64_text).
  Notation pretty := (pretty f64_text).

  Lemma int_says z : (- 0x8000000000000000 <= z <= 0xFFFFFFFFFFFFFFFF)%Z -> number_says f64_parse (int_to_str z) (JInt z).
  Proof.
    intros B. unfold int_to_str. destruct (z <? 0)%Z eqn:S.
    - destruct (nat_to_str_natural (- z)) as [N D]; [lia|]. assert (X := ns_negative f64_parse _ N). rewrite D in X. rewrite Z.opp_involutive in X. apply X. lia.
    - destruct (nat_to_str_natural z) as [N D]; [lia|]. assert (X := ns_natural f64_parse _ N). rewrite D in X. apply X. lia.
  Qed.

  Lemma elements_join n (g : json -> str) w' : blank w' -> forall l,
    Forall (fun x => exists w t, g x = w ++ t /\ blank w /\ says n t x) l -> l <> [] ->
    elements f64_parse n (join (lit ",") (map g l) ++ w') l.
  Proof.
    intros B. induction l as [|x l IH]; intros F NE; [destruct (NE eq_refl)|]. inversion F as [|? ? (w & t & E & BW & S) F']; subst. clear F NE.
    destruct l as [|y l].
    - cbn [map join]. rewrite E, <- app_assoc. constructor; assumption.
    - cbn [map]. rewrite join_more, E. specialize (IH F' ltac:(discriminate)). cbn [map] in IH.
      replace (((w ++ t) ++ lit "," ++ join (lit ",") (g y :: map g l)) ++ w') with (w ++ t ++ [] ++ lit "," ++ (join (lit ",") (g y :: map g l) ++ w')) by (rewrite <- !app_assoc; reflexivity).
      constructor; [assumption..|constructor|exact IH].
  Qed.
  Lemma members_join n (g : str * json -> str) w' : blank w' -> forall l,
    Forall (fun kv => exists w k w2 t, g kv = w ++ k ++ lit ":" ++ w2 ++ t /\ blank w /\ string_says k (fst kv) /\ blank w2 /\ says n t (snd kv)) l -> l <> [] ->
    members f64_parse n (join (lit ",") (map g l) ++ w') l.
  Proof.
    intros B. induction l as [|[x j] l IH]; intros F NE; [destruct (NE eq_refl)|]. inversion F as [|? ? (w & k & w2 & t & E & BW & K & B2 & S) F']; subst. clear F NE. cbn [fst snd] in *.
    destruct l as [|y l].
    - cbn [map join]. rewrite E. replace ((w ++ k ++ lit ":" ++ w2 ++ t) ++ w') with (w ++ k ++ [] ++ lit ":" ++ w2 ++ t ++ w') by (rewrite <- !app_assoc; reflexivity).
      constructor; [assumption..|constructor|assumption|assumption|assumption].
    - cbn [map]. rewrite join_more, E. specialize (IH F' ltac:(discriminate)). cbn [map] in IH.
      replace (((w ++ k ++ lit ":" ++ w2 ++ t) ++ lit "," ++ join (lit ",") (g y :: map g l)) ++ w')
        with (w ++ k ++ [] ++ lit ":" ++ w2 ++ t ++ [] ++ lit "," ++ (join (lit ",") (g y :: map g l) ++ w')) by (rewrite <- !app_assoc; reflexivity).
      constructor; [assumption..|constructor|assumption|assumption|constructor|exact IH].
  Qed.
  Lemma sorted_last_wins {V} (m : list (str * V)) : StronglySorted key_lt m -> last_wins m m.
  Proof. intros S. rewrite <- (bm_from_sorted m S) at 2. apply bm_last_wins. Qed.
  Lemma new_line_blank k : blank (new_line k).
  Proof.
    constructor; [cbn; tauto|]. induction k as [|k IH]; [constructor|]. cbn [repeat concat]. apply Forall_app. split; [|exact IH]. repeat constructor; cbn; tauto.
  Qed.

  Ltac simple_says := lazymatch goal with
    | |- JsonTextSpec.says _ _ _ JNull => apply says_null
    | |- JsonTextSpec.says _ _ _ (JBool true) => apply says_true
    | |- JsonTextSpec.says _ _ _ (JBool false) => apply says_false
    | |- JsonTextSpec.says _ _ _ (JInt _) => apply says_number, int_says; assumption
    | |- JsonTextSpec.says _ _ _ (JFloat _) => apply says_number; assumption
    | |- JsonTextSpec.says _ _ _ (JString _) => apply says_string, string_text_says; assumption
    end.

  (** ** Both ways of printing say the value *)
  Lemma compact_says : forall n j, printable n j -> says n (compact j) j.
  Proof.
    induction n as [|n IH]; intros j P; inversion P; subst; cbn [JsonText.compact];
      try (destruct b); try simple_says.
    - destruct l as [|x l]; [apply (says_empty_array f64_parse n []); constructor|]. apply says_array.
      rewrite <- (app_nil_r (join _ _)). apply elements_join; [constructor| |discriminate].
      eapply Forall_impl; [|eassumption]. intros y Y. exists [], (compact y). split; [reflexivity|]. split; [constructor|apply IH, Y].
    - destruct m as [|x m]; [apply (says_empty_object f64_parse n []); constructor|]. apply says_object with (entries := x :: m); [|apply sorted_last_wins; assumption].
      rewrite <- (app_nil_r (join _ _)). apply members_join; [constructor| |discriminate].
      eapply Forall_impl; [|eassumption]. intros [k y] [T Y]. exists [], (string_text k), [], (compact y).
      split; [reflexivity|]. split; [constructor|]. split; [apply string_text_says, T|]. split; [constructor|apply IH, Y].
  Qed.
  Lemma pretty_says : forall n j, printable n j -> forall level, says n (pretty level j) j.
  Proof.
    induction n as [|n IH]; intros j P level; inversion P; subst; cbn [JsonText.pretty JsonText.compact];
      try (destruct b); try simple_says.
    - destruct l as [|x l]; [apply (says_empty_array f64_parse n []); constructor|].
      rewrite app_assoc with (n := lit "]"). apply says_array. apply elements_join; [apply new_line_blank| |discriminate].
      eapply Forall_impl; [|eassumption]. intros y Y. exists (new_line (Datatypes.S level)), (pretty (Datatypes.S level) y). split; [reflexivity|]. split; [apply new_line_blank|apply IH, Y].
    - destruct m as [|x m]; [apply (says_empty_object f64_parse n []); constructor|].
      rewrite app_assoc with (n := lit "}"). apply says_object with (entries := x :: m); [|apply sorted_last_wins; assumption].
      apply members_join; [apply new_line_blank| |discriminate].
      eapply Forall_impl; [|eassumption]. intros [k y] [T Y]. exists (new_line (Datatypes.S level)), (string_text k), (lit " "), (pretty (Datatypes.S level) y).
      split; [reflexivity|]. split; [apply new_line_blank|]. split; [apply string_text_says, T|]. split; [repeat constructor; cbn; tauto|apply IH, Y].
  Qed.
  Lemma text_says pretty_print j : printable deepest j -> document_says f64_parse (json_text f64_text pretty_print j) j.
  Proof.
    intros P. exists [], (json_text f64_text pretty_print j), []. split; [rewrite app_nil_r; reflexivity|]. split; [constructor|]. split; [constructor|].
    destruct pretty_print; [apply pretty_says, P|apply compact_says, P].
  Qed.

  (** The text is Unicode. *)
  Lemma escape_text c : (code c < 128)%N -> is_text (escape_char c).
  Proof.
    intros L. apply ascii_text. unfold escape_char. rewrite code_ch.
    repeat match goal with |- context [if ?b then _ else _] => destruct b eqn:? end; repeat constructor; try reflexivity.
    - unfold hex_ch. assert (Q : (code c / 16 < 16)%N) by (apply N.div_lt_upper_bound; lia). destruct (code c / 16 <? 10)%N eqn:?; rewrite code_ascii; lia.
    - unfold hex_ch. assert (Q : (code c mod 16 < 16)%N) by (apply N.mod_lt; lia). destruct (code c mod 16 <? 10)%N eqn:?; rewrite code_ascii; lia.
    - exact L.
  Qed.
  Lemma high_char c : (128 <= code c)%N -> escape_char c = [c].
  Proof.
    intros L. unfold escape_char. rewrite code_ch.
    repeat match goal with |- context [(code c =? ?n)%N] => replace (code c =? n)%N with false by lia end. replace (code c <? 32)%N with false by lia. reflexivity.
  Qed.
  Lemma string_text_text s : is_text s -> is_text (string_text s).
  Proof.
    intros (cs & S & ->). unfold string_text. change (quote_ch :: flat_map escape_char (flat_map encode cs) ++ [quote_ch]) with ([quote_ch] ++ flat_map escape_char (flat_map encode cs) ++ [quote_ch]).
    apply is_text_app; [ascii|]. apply is_text_app; [|ascii].
    induction cs as [|c cs IH]; [exists []; split; [intros ? []|reflexivity]|]. cbn [flat_map]. rewrite flat_map_app.
    apply is_text_app; [|apply IH; intros; apply S; right; assumption]. specialize (S c (or_introl eq_refl)). unfold encode.
    destruct (c <? 128)%N eqn:A.
    - cbn [bytes map flat_map]. rewrite app_nil_r. apply escape_text. rewrite code_ascii; lia.
    - assert (G : forall l, Forall (fun n => (128 <= n < 256)%N) l -> flat_map escape_char (bytes l) = bytes l).
      { induction 1 as [|n l L _ IHl]; [reflexivity|]. cbn [bytes map flat_map]. rewrite high_char by (rewrite code_ascii; lia). cbn [app]. f_equal. exact IHl. }
      assert (M := fun a => N.mod_lt a 64 ltac:(lia)). unfold scalar in S.
      assert (R : is_text (encode c)). { exists [c]. split; [intros x [<-|[]]; exact S|cbn [flat_map]; rewrite app_nil_r; reflexivity]. }
      unfold encode in R. rewrite A in R.
      destruct (c <? 2048)%N eqn:B; [|destruct (c <? 65536)%N eqn:C]; rewrite G; try exact R;
        repeat (apply Forall_cons; [|]); try apply Forall_nil;
        match goal with |- (_ <= ?p + ?x <= _)%N => idtac | |- (_ <= ?p + ?x mod 64 < _)%N => specialize (M x); lia | |- (_ <= ?p + ?x / ?y < _)%N => assert (x / y < 256 - p)%N by (apply N.div_lt_upper_bound; lia); lia end.
  Qed.
  Lemma number_text_ascii t j : number_says f64_parse t j -> Forall (fun c => (code c < 128)%N) t.
  Proof.
    assert (D : forall d, Forall digit d -> Forall (fun c => (code c < 128)%N) d).
    { intros d F. eapply Forall_impl; [|exact F]. unfold digit. lia. }
    assert (N : forall i, natural i -> Forall (fun c => (code c < 128)%N) i).
    { intros i [->|[[_ F] _]]; [repeat constructor|apply D, F]. }
    intros [i I L|i I L|sign i f e b S I F E X P].
    - apply N, I.
    - constructor; [reflexivity|apply N, I].
    - repeat (apply Forall_app; split).
      + destruct S as [-> | ->]; repeat constructor.
      + apply N, I.
      + destruct F as [->|(d & -> & _ & F)]; [constructor|]. constructor; [reflexivity|apply D, F].
      + destruct E as [->|(m & s & d & -> & M & Sg & _ & Fd)]; [constructor|]. repeat (apply Forall_app; split); [..|apply D, Fd].
        * destruct M as [-> | ->]; repeat constructor.
        * destruct Sg as [-> |[-> | ->]]; repeat constructor.
  Qed.
  Lemma blank_text w : blank w -> is_text w.
  Proof. intros B. apply ascii_text. eapply Forall_impl; [|exact B]. cbn [In]. intros a I. cbn beta in I. lia. Qed.
  Lemma join_text l : Forall is_text l -> is_text (join (lit ",") l).
  Proof.
    induction 1 as [|x l T F IH]; [exists []; split; [intros ? []|reflexivity]|]. cbn [join]. destruct l; [exact T|].
    apply is_text_app; [exact T|]. apply is_text_app; [ascii|exact IH].
  Qed.
  Lemma compact_text : forall n j, printable n j -> is_text (compact j).
  Proof.
    induction n as [|n IH]; intros j P; inversion P; subst; cbn [JsonText.compact];
      try (destruct b); try ascii; try (eapply ascii_text, number_text_ascii, int_says; eassumption); try (apply string_text_text; assumption);
      try (eapply ascii_text, number_text_ascii; eassumption).
    - apply is_text_app; [ascii|]. apply is_text_app; [|ascii]. apply join_text. apply Forall_map. eapply Forall_impl; [|eassumption]. intros y. apply IH.
    - apply is_text_app; [ascii|]. apply is_text_app; [|ascii]. apply join_text. apply Forall_map. eapply Forall_impl; [|eassumption]. intros [k y] [T Y].
      cbn [fst snd]. apply is_text_app; [apply string_text_text, T|]. apply is_text_app; [ascii|apply IH, Y].
  Qed.
  Lemma pretty_text : forall n j, printable n j -> forall level, is_text (pretty level j).
  Proof.
    induction n as [|n IH]; intros j P level; inversion P; subst; cbn [JsonText.pretty JsonText.compact];
      try (destruct b); try ascii; try (eapply ascii_text, number_text_ascii, int_says; eassumption); try (apply string_text_text; assumption);
      try (eapply ascii_text, number_text_ascii; eassumption).
    - destruct l as [|x l]; [ascii|]. apply is_text_app; [ascii|]. apply is_text_app; [|apply is_text_app; [apply blank_text, new_line_blank|ascii]]. apply join_text. apply Forall_map.
      eapply Forall_impl; [|eassumption]. intros y Y. apply is_text_app; [apply blank_text, new_line_blank|apply IH, Y].
    - destruct m as [|x m]; [ascii|]. apply is_text_app; [ascii|]. apply is_text_app; [|apply is_text_app; [apply blank_text, new_line_blank|ascii]]. apply join_text. apply Forall_map.
      eapply Forall_impl; [|eassumption]. intros [k y] [T Y]. cbn [fst snd]. apply is_text_app; [apply blank_text, new_line_blank|].
      apply is_text_app; [apply string_text_text, T|]. apply is_text_app; [ascii|apply IH, Y].
  Qed.
  Lemma json_text_text pretty_print j : printable deepest j -> is_text (json_text f64_text pretty_print j).
  Proof. intros P. destruct pretty_print; [eapply pretty_text, P|eapply compact_text, P]. Qed.
End Printing.
