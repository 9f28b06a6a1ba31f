(** The lines of a model as structured facts; how much of the model they determine. *)
From Verif.Model Require Import Lines.
From Verif.Spec Require Import IdentitySpec ModelSpec LinesSpec.
From Verif.Proofs Require Import BaseFacts IdentityFacts ValueFacts LinesFacts.
From Coq Require Import Permutation.

(** ** Permutations and grouping *)
Lemma perm_map_inj {A B} (f : A -> B) (P : A -> Prop) (a b : list A) :
  (forall x y, P x -> P y -> f x = f y -> x = y) -> Forall P a -> Forall P b ->
  Permutation (map f a) (map f b) -> Permutation a b.
Proof.
  intros Inj. revert b. induction a as [|x a IH]; intros b Fa Fb Pm.
  - apply Permutation_nil in Pm. destruct b; [constructor|discriminate].
  - inversion Fa as [|? ? Px Fa']; subst. cbn in Pm.
    assert (I : In (f x) (map f b)) by (eapply Permutation_in; [exact Pm|left; reflexivity]).
    apply in_map_iff in I as (y & E & I). apply in_split in I as (b1 & b2 & ->).
    apply Forall_app in Fb as [F1 F2]. inversion F2 as [|? ? Py F2']; subst.
    assert (y = x) by auto. subst y. apply Permutation_cons_app. apply IH; auto.
    + apply Forall_app; auto.
    + rewrite map_app in Pm. cbn in Pm. apply Permutation_cons_app_inv in Pm. rewrite map_app. exact Pm.
Qed.

Section Group.
  Context {K V F : Type} (keq : forall a b : K, {a = b} + {a <> b}) (g : V -> list F).
  Definition tagged_facts (l : list (K * V)) : list (K * F) := flat_map (fun e => map (pair (fst e)) (g (snd e))) l.
  Definition here (k : K) (x : K * F) : list F := if keq (fst x) k then [snd x] else [].
  Definition there (k : K) (x : K * F) : list (K * F) := if keq (fst x) k then [] else [x].
  Lemma here_pair k l : flat_map (here k) (map (pair k) l) = l.
  Proof. induction l as [|x l IH]; cbn; [reflexivity|]. unfold here at 1. cbn. destruct (keq k k); [|congruence]. cbn. rewrite IH. reflexivity. Qed.
  Lemma there_pair k l : flat_map (there k) (map (pair k) l) = [].
  Proof. induction l as [|x l IH]; cbn; [reflexivity|]. unfold there at 1. cbn. destruct (keq k k); [|congruence]. exact IH. Qed.
  Lemma here_other k k' l : k' <> k -> flat_map (here k) (map (pair k') l) = [].
  Proof. intros N. induction l as [|x l IH]; cbn; [reflexivity|]. unfold here at 1. cbn. destruct (keq k' k); [congruence|]. exact IH. Qed.
  Lemma there_other k k' l : k' <> k -> flat_map (there k) (map (pair k') l) = map (pair k') l.
  Proof. intros N. induction l as [|x l IH]; cbn; [reflexivity|]. unfold there at 1. cbn. destruct (keq k' k); [congruence|]. cbn. rewrite IH. reflexivity. Qed.
  Lemma here_absent k l : ~ In k (map fst l) -> flat_map (here k) (tagged_facts l) = [].
  Proof.
    induction l as [|[k' v] l IH]; cbn; intros N; [reflexivity|]. fold (tagged_facts l). rewrite flat_map_app, here_other, IH; [reflexivity|tauto|].
    intros ->. apply N. left; reflexivity.
  Qed.
  Lemma there_absent k l : ~ In k (map fst l) -> flat_map (there k) (tagged_facts l) = tagged_facts l.
  Proof.
    induction l as [|[k' v] l IH]; cbn; intros N; [reflexivity|]. fold (tagged_facts l). rewrite flat_map_app, there_other, IH; [reflexivity|tauto|].
    intros ->. apply N. left; reflexivity.
  Qed.
  Lemma group (a b : list (K * V)) :
    NoDup (map fst a) -> NoDup (map fst b) ->
    (forall k v, In (k, v) a -> g v <> []) -> (forall k v, In (k, v) b -> g v <> []) ->
    Permutation (tagged_facts a) (tagged_facts b) -> reordered (fun v w => Permutation (g v) (g w)) a b.
  Proof.
    revert b. induction a as [|[k v] a IH]; intros b Na Nb Ga Gb P.
    - destruct b as [|[k w] b]; [exists []; split; constructor|]. exfalso. apply (Gb k w (or_introl eq_refl)).
      cbn in P. apply Permutation_nil in P. apply app_eq_nil in P as [P _]. destruct (g w); [reflexivity|discriminate].
    - inversion Na as [|? ? Nk Na']; subst.
      assert (I : In k (map fst b)).
      { destruct (g v) as [|x r] eqn:E; [exfalso; exact (Ga k v (or_introl eq_refl) E)|].
        assert (I : In (k, x) (tagged_facts b)). { eapply Permutation_in; [exact P|]. cbn. rewrite E. left; reflexivity. }
        apply in_flat_map in I as ([k' w] & I & J). apply in_map_iff in J as (y & Ey & _). cbn in Ey. injection Ey as -> _.
        apply in_map_iff. exists (k, w). auto. }
      apply in_map_iff in I as ([k' w] & Ek & I). cbn in Ek. subst k'. apply in_split in I as (b1 & b2 & ->).
      rewrite map_app in Nb. cbn in Nb. assert (Nb' := NoDup_remove_1 _ _ _ Nb). apply NoDup_remove_2 in Nb.
      rewrite in_app_iff in Nb.
      assert (Eb : tagged_facts (b1 ++ (k, w) :: b2) = tagged_facts b1 ++ map (pair k) (g w) ++ tagged_facts b2).
      { unfold tagged_facts. rewrite flat_map_app. reflexivity. }
      assert (Ea : tagged_facts ((k, v) :: a) = map (pair k) (g v) ++ tagged_facts a) by reflexivity.
      assert (P1 := flat_map_perm (here k) _ _ P). assert (P2 := flat_map_perm (there k) _ _ P).
      rewrite Ea, Eb, !flat_map_app in P1, P2. rewrite !here_pair, !here_absent in P1 by tauto. rewrite !there_pair, !there_absent in P2 by tauto.
      cbn [app] in P1, P2. rewrite !app_nil_r in P1.
      destruct (IH (b1 ++ b2)) as (p & Pp & Fp).
      + assumption.
      + rewrite map_app. exact Nb'.
      + intros; eapply Ga; right; eassumption.
      + intros k0 v0 I0. apply (Gb k0). apply in_app_iff in I0. apply in_app_iff. cbn. tauto.
      + unfold tagged_facts at 2. rewrite flat_map_app. exact P2.
      + apply Forall2_app_inv_r in Fp as (p1 & p2 & F1 & F2 & ->). exists (p1 ++ (k, v) :: p2). split.
        * apply Permutation_cons_app. exact Pp.
        * apply Forall2_app; [exact F1|]. constructor; [|exact F2]. split; [reflexivity|exact P1].
  Qed.
End Group.
Lemma reordered_weaken {K V} (R S : V -> V -> Prop) (a b : list (K * V)) :
  (forall k v w, In (k, v) a -> In (k, w) b -> R v w -> S v w) -> reordered R a b -> reordered S a b.
Proof.
  intros W (p & P & F). exists p. split; [exact P|].
  assert (Sub : forall e, In e p -> In e a) by (intros e I; eapply Permutation_in; [symmetry; exact P|exact I]).
  clear P. revert W Sub. induction F as [|[k v] [k' w] p b [E Rv] F IH]; intros W Sub; constructor.
  - cbn in *. subst k'. split; [reflexivity|]. apply (W k); auto.
  - apply IH; [|intros; apply Sub; right; assumption]. intros k0 v0 w0 I1 I2. apply (W k0); [exact I1|right; exact I2].
Qed.
Lemma reordered_pairs {K V} (a b : list (K * V)) : reordered eq a b -> Permutation a b.
Proof.
  intros (p & P & F). rewrite P. clear P. induction F as [|[k v] [k' w] p b [E1 E2] F IH]; [constructor|].
  cbn in E1, E2. subst. constructor. exact IH.
Qed.

(** ** Values *)
Inductive step := Idx (i : nat) | Key (k : str).
Inductive leaf := LInt (z : Z) | LBool (b : bool) | LText (s : str) | LNone | LNoElements | LNoEntries.
Definition at_step (s : step) (pl : list step * leaf) : list step * leaf := (s :: fst pl, snd pl).
Fixpoint vfacts (v : value) : list (list step * leaf) :=
  match v with
  | VArray [] => [([], LNoElements)]
  | VArray vs =>
      (fix go (i : nat) (l : list value) :=
         match l with [] => [] | x :: l' => map (at_step (Idx i)) (vfacts x) ++ go (S i) l' end) 0 vs
  | VObject [] => [([], LNoEntries)]
  | VObject vs => flat_map (fun kv => map (at_step (Key (fst kv))) (vfacts (snd kv))) vs
  | VNumber (NInteger n) => [([], LInt n)]
  | VNumber (NFloat _) => [([], LNone)]
  | VBoolean b => [([], LBool b)]
  | VString s => [([], LText s)]
  | VNone => [([], LNone)]
  end.
Definition afacts : nat -> list value -> list (list step * leaf) :=
  fix go (i : nat) (l : list value) :=
    match l with [] => [] | x :: l' => map (at_step (Idx i)) (vfacts x) ++ go (S i) l' end.
Definition ofacts (l : list (str * value)) : list (list step * leaf) :=
  flat_map (fun kv => map (at_step (Key (fst kv))) (vfacts (snd kv))) l.
Definition step_text (s : step) : str :=
  match s with Idx i => lit "[" ++ index_str i ++ lit "]=" | Key k => lit "{" ++ k ++ lit "}=" end.
Definition leaf_text (l : leaf) : str :=
  match l with
  | LInt z => int_to_str z
  | LBool b => bool_str b
  | LText s => [dquote] ++ s ++ [dquote]
  | LNone => lit "()"
  | LNoElements => lit "[]"
  | LNoEntries => lit "{}"
  end.
Definition pl_text (pl : list step * leaf) : str := concat (map step_text (fst pl)) ++ leaf_text (snd pl).
Lemma pl_text_step s pl : pl_text (at_step s pl) = step_text s ++ pl_text pl.
Proof. unfold pl_text, at_step. cbn [fst snd map concat]. rewrite app_assoc. reflexivity. Qed.

Lemma value_lines_facts f64_str v : lined_value v -> forall prefix,
  value_lines f64_str prefix v = map (fun pl => prefix ++ pl_text pl) (vfacts v).
Proof.
  induction v as [vs IH|vs IH|n|b|s|] using value_ind'; intros L prefix.
  - inversion L as [? F| | | | |]; subst. destruct vs as [|x vs]; [reflexivity|].
    rewrite vlines_array. change (vfacts (VArray (x :: vs))) with (afacts 0 (x :: vs)).
    revert IH F. generalize (x :: vs) as l. generalize 0 as i. clear.
    intros i l IH. revert i. induction IH as [|y l Hy _ IHl]; intros i F; cbn [array_lines afacts]; [reflexivity|].
    inversion F; subst. rewrite map_app, Hy, IHl by assumption. f_equal. rewrite map_map. apply map_ext. intros pl.
    rewrite pl_text_step. cbn [step_text]. rewrite <- !app_assoc. reflexivity.
  - inversion L as [|? N F| | | |]; subst. destruct vs as [|x vs]; [reflexivity|].
    rewrite vlines_object. change (vfacts (VObject (x :: vs))) with (ofacts (x :: vs)).
    revert IH F. generalize (x :: vs) as l. clear. unfold object_lines, ofacts.
    intros l IH. induction IH as [|y l Hy _ IHl]; intros F; cbn [flat_map]; [reflexivity|].
    inversion F as [|? ? [_ Ly] F']; subst. rewrite map_app, Hy, IHl by assumption. f_equal. rewrite map_map. apply map_ext. intros pl.
    rewrite pl_text_step. cbn [step_text]. rewrite <- !app_assoc. reflexivity.
  - inversion L; subst. reflexivity.
  - reflexivity.
  - reflexivity.
  - reflexivity.
Qed.
Lemma vfacts_some v : vfacts v <> [].
Proof.
  induction v as [vs IH|vs IH|n|b|s|] using value_ind'; try discriminate.
  - destruct IH as [|x vs Hx _]; [discriminate|]. cbn. destruct (vfacts x); [congruence|discriminate].
  - destruct IH as [|x vs Hx _]; [discriminate|]. cbn. destruct (vfacts (snd x)); [congruence|discriminate].
  - destruct n; discriminate.
Qed.

Definition at_index (i : nat) (pl : list step * leaf) : list (list step * leaf) :=
  match fst pl with Idx j :: p => if Nat.eq_dec j i then [(p, snd pl)] else [] | _ => [] end.
Definition not_index (i : nat) (pl : list step * leaf) : list (list step * leaf) :=
  match fst pl with Idx j :: p => if Nat.eq_dec j i then [] else [pl] | _ => [] end.
Lemma at_index_same i l : flat_map (at_index i) (map (at_step (Idx i)) l) = l.
Proof.
  induction l as [|[p x] l IH]; cbn; [reflexivity|]. unfold at_index at 1. cbn. destruct (Nat.eq_dec i i); [|congruence].
  cbn. f_equal. exact IH.
Qed.
Lemma not_index_same i l : flat_map (not_index i) (map (at_step (Idx i)) l) = [].
Proof.
  induction l as [|[p x] l IH]; cbn; [reflexivity|]. unfold not_index at 1. cbn. destruct (Nat.eq_dec i i); [|congruence]. exact IH.
Qed.
Lemma at_index_later i l : forall j, i < j -> flat_map (at_index i) (afacts j l) = [] /\ flat_map (not_index i) (afacts j l) = afacts j l.
Proof.
  induction l as [|x l IH]; intros j L; cbn [afacts flat_map]; [auto|]. rewrite !flat_map_app.
  destruct (IH (S j)) as [-> ->]; [lia|].
  assert (E : forall q, flat_map (at_index i) (map (at_step (Idx j)) q) = [] /\ flat_map (not_index i) (map (at_step (Idx j)) q) = map (at_step (Idx j)) q).
  { induction q as [|[p y] q [IH1 IH2]]; [auto|]. cbn [map flat_map].
    assert (A : at_index i (at_step (Idx j) (p, y)) = [] /\ not_index i (at_step (Idx j) (p, y)) = [at_step (Idx j) (p, y)]).
    { unfold at_index, not_index. cbn. destruct (Nat.eq_dec j i); [lia|]. auto. }
    destruct A as [-> ->]. rewrite IH1, IH2. auto. }
  destruct (E (vfacts x)) as [-> ->]. rewrite app_nil_r. auto.
Qed.
Lemma afacts_perm a : forall b i, Permutation (afacts i a) (afacts i b) -> Forall2 (fun x y => Permutation (vfacts x) (vfacts y)) a b.
Proof.
  induction a as [|x a IH]; intros [|y b] i P; cbn [afacts] in P.
  - constructor.
  - apply Permutation_nil in P. apply app_eq_nil in P as [P _]. exfalso. apply (vfacts_some y). destruct (vfacts y); [reflexivity|discriminate].
  - apply Permutation_sym, Permutation_nil in P. apply app_eq_nil in P as [P _]. exfalso. apply (vfacts_some x). destruct (vfacts x); [reflexivity|discriminate].
  - assert (P1 := flat_map_perm (at_index i) _ _ P). assert (P2 := flat_map_perm (not_index i) _ _ P).
    rewrite !flat_map_app, !at_index_same in P1. rewrite !flat_map_app, !not_index_same in P2.
    destruct (at_index_later i a (S i) ltac:(lia)) as [A1 A2]. destruct (at_index_later i b (S i) ltac:(lia)) as [B1 B2].
    rewrite A1, B1, !app_nil_r in P1. rewrite A2, B2 in P2. constructor; [exact P1|]. eapply IH, P2.
Qed.
Definition keyed (pl : list step * leaf) : list (str * (list step * leaf)) :=
  match fst pl with Key k :: p => [(k, (p, snd pl))] | _ => [] end.
Lemma keyed_object l : flat_map keyed (ofacts l) = tagged_facts vfacts l.
Proof.
  induction l as [|[k v] l IH]; cbn; [reflexivity|]. unfold ofacts in *. cbn. rewrite flat_map_app, IH. f_equal.
  induction (vfacts v) as [|[p x] q IHq]; cbn; [reflexivity|]. f_equal. exact IHq.
Qed.
Lemma vfacts_heads v : match v with
  | VArray (_ :: _) => exists i pl, In (at_step (Idx i) pl) (vfacts v)
  | VObject (_ :: _) => exists k pl, In (at_step (Key k) pl) (vfacts v)
  | _ => True end.
Proof.
  destruct v as [[|x l]|[|[k x] l]| | | |]; try exact I; cbn.
  - pose proof (vfacts_some x) as N. destruct (vfacts x) as [|pl q]; [congruence|]. exists 0, pl. left; reflexivity.
  - pose proof (vfacts_some x) as N. destruct (vfacts x) as [|pl q]; [congruence|]. exists k, pl. left; reflexivity.
Qed.

Lemma vfacts_perm v : forall w, lined_value v -> lined_value w -> Permutation (vfacts v) (vfacts w) -> reorder_value v w.
Proof.
  induction v as [vs IH|vs IH|n|b|s|] using value_ind'; intros w Lv Lw P.
  all: assert (Hw := vfacts_heads w).
  all: assert (Down : forall x, In x (vfacts w) -> match vfacts w with [_] => True | _ => True end) by (intros; destruct (vfacts w) as [|? [|]]; exact I).
  - destruct vs as [|x vs].
    + cbn [vfacts] in P. apply Permutation_length_1_inv in P. destruct w as [[|y l]|[|[k y] l]|[]| | |]; try discriminate P; try apply rv_same.
      * destruct Hw as (i & pl & I). rewrite P in I. destruct I as [I|[]]; discriminate I.
      * destruct Hw as (k0 & pl & I). rewrite P in I. destruct I as [I|[]]; discriminate I.
    + assert (Hv := vfacts_heads (VArray (x :: vs))). cbn beta iota in Hv. destruct Hv as (i & pl & I).
      assert (J := Permutation_in _ P I). destruct w as [[|y l]|[|[k y] l]|[]| | |]; try (destruct J as [J|[]]; discriminate J).
      * apply rv_array. inversion Lv as [? Fv| | | | |]; inversion Lw as [? Fw| | | | |]; subst.
        change (Permutation (afacts 0 (x :: vs)) (afacts 0 (y :: l))) in P. apply afacts_perm in P.
        clear - P IH Fv Fw. revert IH Fv Fw. induction P as [|a b la lb Pab _ IHP]; intros IH Fv Fw; constructor.
        -- inversion IH; inversion Fv; inversion Fw; subst; auto.
        -- inversion IH; inversion Fv; inversion Fw; subst; auto.
      * exfalso. change (In (at_step (Idx i) pl) (ofacts ((k, y) :: l))) in J. apply in_flat_map in J as (e & _ & J).
        apply in_map_iff in J as (q & E & _). discriminate E.
  - destruct vs as [|x vs].
    + cbn [vfacts] in P. apply Permutation_length_1_inv in P. destruct w as [[|y l]|[|[k y] l]|[]| | |]; try discriminate P; try apply rv_same.
      * destruct Hw as (i & pl & I). rewrite P in I. destruct I as [I|[]]; discriminate I.
      * destruct Hw as (k0 & pl & I). rewrite P in I. destruct I as [I|[]]; discriminate I.
    + assert (Hv := vfacts_heads (VObject (x :: vs))). cbn beta iota in Hv. destruct Hv as (k0 & pl & I).
      assert (J := Permutation_in _ P I). destruct w as [[|y l]|[|[k y] l]|[]| | |]; try (destruct J as [J|[]]; discriminate J).
      * exfalso. change (In (at_step (Key k0) pl) (afacts 0 (y :: l))) in J. revert J. generalize 0 as i. generalize (y :: l) as q.
        induction q as [|z q IHq]; intros i J; cbn [afacts] in J; [exact J|]. apply in_app_iff in J as [J|J]; [|eapply IHq, J].
        apply in_map_iff in J as (e & E & _). discriminate E.
      * inversion Lv as [|? Nv Fv| | | |]; inversion Lw as [|? Nw Fw| | | |]; subst.
        change (Permutation (ofacts (x :: vs)) (ofacts ((k, y) :: l))) in P.
        apply (flat_map_perm keyed) in P. rewrite !keyed_object in P.
        apply (group (list_eq_dec Ascii.ascii_dec)) in P; auto using vfacts_some.
        apply (reordered_weaken _ reorder_value) in P; [destruct P as (p & Pp & Fp); eapply rv_object; eassumption|].
        intros key v w I1 I2 R. rewrite Forall_forall in IH, Fv, Fw. apply (IH (key, v) I1); [apply (Fv _ I1)|apply (Fw _ I2)|exact R].
  - inversion Lv; subst. cbn [vfacts] in P. apply Permutation_length_1_inv in P.
    destruct w as [[|y l]|[|[k y] l]|[]| | |]; try discriminate P; try (injection P as ->; apply rv_same);
      destruct Hw as (i & pl & I); rewrite P in I; destruct I as [I|[]]; discriminate I.
  - cbn [vfacts] in P. apply Permutation_length_1_inv in P.
    destruct w as [[|y l]|[|[k y] l]|[]| | |]; try discriminate P; try (injection P as ->; apply rv_same);
      destruct Hw as (i & pl & I); rewrite P in I; destruct I as [I|[]]; discriminate I.
  - cbn [vfacts] in P. apply Permutation_length_1_inv in P.
    destruct w as [[|y l]|[|[k y] l]|[]| | |]; try discriminate P; try (injection P as ->; apply rv_same);
      destruct Hw as (i & pl & I); rewrite P in I; destruct I as [I|[]]; discriminate I.
  - cbn [vfacts] in P. apply Permutation_length_1_inv in P.
    destruct w as [[|y l]|[|[k y] l]|[|]| | |]; try discriminate P; try apply rv_same;
      try (destruct Hw as (i & pl & I); rewrite P in I; destruct I as [I|[]]; discriminate I).
    inversion Lw.
Qed.

(** The text of a path and leaf determines both. *)
Definition numc (c : ascii) : bool := is_digit c || Ascii.eqb c "-".
Lemma int_numc n : Forall (fun c => numc c = true) (int_to_str n).
Proof.
  assert (D : forall d, (0 <= d < 10)%Z -> numc (digit_ch d) = true).
  { intros d B. assert (d = 0 \/ d = 1 \/ d = 2 \/ d = 3 \/ d = 4 \/ d = 5 \/ d = 6 \/ d = 7 \/ d = 8 \/ d = 9)%Z as Q by lia.
    destruct Q as [-> | [-> | [-> | [-> | [-> | [-> | [-> | [-> | [-> | ->]]]]]]]]]; reflexivity. }
  assert (W : forall f m acc, Forall (fun c => numc c = true) acc -> Forall (fun c => numc c = true) (dec_digits f m acc)).
  { induction f as [|f IH]; intros m acc A; cbn [dec_digits]; [exact A|].
    assert (A' : Forall (fun c => numc c = true) (digit_ch (m mod 10) :: acc)).
    { constructor; [|exact A]. apply D, Z.mod_pos_bound; lia. }
    destruct (m / 10 =? 0)%Z; [exact A'|apply IH, A']. }
  unfold int_to_str. destruct (n <? 0)%Z; [constructor; [reflexivity|]|]; apply W; constructor.
Qed.
Lemma int_cons n : exists c r, int_to_str n = c :: r /\ numc c = true.
Proof.
  assert (F := int_numc n). destruct (int_to_str n) as [|c r] eqn:E; [|inversion F; subst; eauto].
  exfalso. unfold int_to_str in E. destruct (n <? 0)%Z; [discriminate|]. unfold nat_to_str in E.
  destruct (dec_digits_head (Z.to_nat (Z.log2 n)) n []) as (d & r & _ & X). rewrite X in E. discriminate.
Qed.
Lemma leaf_text_inj a b : leaf_text a = leaf_text b -> a = b.
Proof.
  assert (Num : forall z r, int_to_str z = r -> match r with c :: _ => numc c = true | [] => False end).
  { intros z r <-. destruct (int_cons z) as (c & r & -> & N). exact N. }
  destruct a as [x|x|x| | |], b as [y|y|y| | |]; cbn [leaf_text]; intros E; try reflexivity; try discriminate E;
    try (exfalso; assert (N := Num _ _ E); try destruct y; discriminate N);
    try (exfalso; symmetry in E; assert (N := Num _ _ E); try destruct x; discriminate N);
    try (exfalso; destruct x; discriminate E); try (exfalso; destruct y; discriminate E).
  - apply int_to_str_inj in E. congruence.
  - destruct x, y; try reflexivity; discriminate E.
  - cbn [app] in E. injection E as E. apply app_inj_tail in E as [E _]. congruence.
Qed.
Definition steps_ok (p : list step) : Prop := Forall (fun s => match s with Key k => ~ In "}"%char k | Idx _ => True end) p.
Lemma not_brace k : ~ In "}"%char k -> Forall (fun c => negb (Ascii.eqb c "}") = true) k.
Proof.
  intros N. apply Forall_forall. intros c I. destruct (Ascii.eqb c "}") eqn:E; [|reflexivity]. apply Ascii.eqb_eq in E. subst c. contradiction.
Qed.
Lemma leaf_not_step l s r : match s with Key k => ~ In "}"%char k | Idx _ => True end -> leaf_text l <> step_text s ++ r.
Proof.
  intros N E. destruct s as [i|k]; cbn [step_text] in E; destruct l as [x|x|x| | |]; cbn [leaf_text] in E; try discriminate E;
    try (destruct (int_cons x) as (c & r' & Ec & Nc); rewrite Ec in E; injection E as -> _; discriminate Nc);
    try (destruct x; discriminate E).
  - unfold index_str in E. destruct (int_cons (Z.of_nat i)) as (c & r' & Ec & Nc). rewrite Ec in E. cbn in E. injection E as <- _. discriminate Nc.
  - destruct k as [|c k]; [discriminate E|]. cbn in E. injection E as <- _. apply N. left; reflexivity.
Qed.
Lemma pl_text_inj : forall a b, steps_ok (fst a) -> steps_ok (fst b) -> pl_text a = pl_text b -> a = b.
Proof.
  intros [p l] [q k]. cbn [fst]. unfold pl_text. cbn [fst snd]. revert q. induction p as [|s p IH]; intros q Fp Fq E.
  - destruct q as [|t q]; cbn [map concat app] in E; [apply leaf_text_inj in E; congruence|].
    exfalso. inversion Fq; subst. rewrite <- app_assoc in E. eapply leaf_not_step; eassumption.
  - inversion Fp as [|? ? Hs Fp']; subst. destruct q as [|t q]; cbn [map concat app] in E.
    + exfalso. rewrite <- app_assoc in E. symmetry in E. eapply leaf_not_step; eassumption.
    + inversion Fq as [|? ? Ht Fq']; subst. rewrite <- !app_assoc in E.
      assert (X : s = t /\ concat (map step_text p) ++ leaf_text l = concat (map step_text q) ++ leaf_text k).
      { destruct s as [i|u], t as [j|w]; cbn [step_text] in E; rewrite <- !app_assoc in E; try discriminate E.
        - injection E as E. apply (word_cut numc) in E as (E1 & _ & E2); try reflexivity; try apply int_numc.
          apply int_to_str_inj, Nat2Z.inj in E1. injection E2 as E2. split; [congruence|exact E2].
        - injection E as E. apply (word_cut (fun c => negb (Ascii.eqb c "}"))) in E as (-> & _ & E2); try reflexivity; try (apply not_brace; assumption).
          injection E2 as E2. auto. }
      destruct X as [-> X]. apply IH in X; auto. congruence.
Qed.
Lemma vfacts_steps v : lined_value v -> Forall (fun pl => steps_ok (fst pl)) (vfacts v).
Proof.
  induction v as [vs IH|vs IH|n|b|s|] using value_ind'; intros L; try (repeat constructor; fail).
  - inversion L as [? F| | | | |]; subst. destruct vs as [|x vs]; [repeat constructor|].
    change (Forall (fun pl => steps_ok (fst pl)) (afacts 0 (x :: vs))). revert IH F. generalize (x :: vs) as l. generalize 0 as i. clear.
    intros i l IH. revert i. induction IH as [|y l Hy _ IHl]; intros i F; cbn [afacts]; [constructor|]. inversion F; subst.
    apply Forall_app. split; [|apply IHl; assumption]. apply Forall_map. eapply Forall_impl; [|apply Hy; assumption]. intros pl Hp. constructor; [exact I|exact Hp].
  - inversion L as [|? N F| | | |]; subst. destruct vs as [|x vs]; [repeat constructor|].
    change (Forall (fun pl => steps_ok (fst pl)) (ofacts (x :: vs))). revert IH F. generalize (x :: vs) as l. clear. unfold ofacts.
    intros l IH. induction IH as [|y l Hy _ IHl]; intros F; cbn [flat_map]; [constructor|]. inversion F as [|? ? [Nb Ly] F']; subst.
    apply Forall_app. split; [|apply IHl; assumption]. apply Forall_map. eapply Forall_impl; [|apply Hy; assumption]. intros pl Hp. constructor; [exact Nb|exact Hp].
  - destruct n; repeat constructor.
Qed.

(** ** Traits *)
Definition tfact : Type := (list step * leaf).
Definition tv_facts (o : option value) : list (option tfact) :=
  match o with None => [None] | Some v => map Some (vfacts v) end.
Lemma tv_facts_some o : tv_facts o <> [].
Proof. destruct o as [v|]; [|discriminate]. cbn. pose proof (vfacts_some v). destruct (vfacts v); [congruence|discriminate]. Qed.
Definition lined_tv (o : option value) : Prop := match o with Some v => lined_value v | None => True end.
Definition some_fact (o : option tfact) : list tfact := match o with Some x => [x] | None => [] end.
Lemma some_facts l : flat_map some_fact (map Some l) = l.
Proof. induction l as [|x l IH]; cbn; [reflexivity|]. f_equal. exact IH. Qed.
Lemma tv_perm a b : lined_tv a -> lined_tv b -> Permutation (tv_facts a) (tv_facts b) -> reorder_trait_value a b.
Proof.
  intros La Lb P. destruct a as [v|], b as [w|]; cbn [tv_facts] in P.
  - cbn. apply vfacts_perm; auto. apply (flat_map_perm some_fact) in P. rewrite !some_facts in P. exact P.
  - exfalso. apply Permutation_sym, Permutation_length_1_inv in P. pose proof (vfacts_some v). destruct (vfacts v); [congruence|discriminate].
  - exfalso. apply Permutation_length_1_inv in P. pose proof (vfacts_some w). destruct (vfacts w); [congruence|discriminate].
  - exact I.
Qed.
Definition sid_dec (a b : shape_id) : {a = b} + {a <> b}.
Proof. decide equality; try apply (list_eq_dec Ascii.ascii_dec). decide equality. apply (list_eq_dec Ascii.ascii_dec). Defined.
Definition ts_facts (ts : traits) : list (shape_id * option tfact) := tagged_facts tv_facts ts.
Lemma ts_perm a b : lined_traits a -> lined_traits b -> Permutation (ts_facts a) (ts_facts b) -> reorder_traits a b.
Proof.
  intros [Na Fa] [Nb Fb] P. apply (group sid_dec) in P; auto using tv_facts_some.
  eapply reordered_weaken; [|exact P]. intros k v w I1 I2 R. rewrite Forall_forall in Fa, Fb.
  apply tv_perm; [apply (Fa _ I1)|apply (Fb _ I2)|exact R].
Qed.
Definition t_text (x : shape_id * option tfact) : str :=
  sid_display (fst x) ++ match snd x with None => [] | Some pl => val ++ pl_text pl end.
Lemma traits_lines_facts f64_str ts prefix : lined_traits ts ->
  traits_lines f64_str prefix ts = map (fun x => prefix ++ t_text x) (ts_facts ts).
Proof.
  intros [_ F]. unfold traits_lines, ts_facts, tagged_facts. induction F as [|[t o] ts [_ L] _ IH]; cbn [flat_map]; [reflexivity|].
  rewrite map_app, IH. f_equal. unfold trait_lines. cbn [fst snd]. cbn in L. destruct o as [v|]; cbn [tv_facts].
  - rewrite value_lines_facts by exact L. rewrite !map_map. apply map_ext. intros pl. unfold t_text. cbn [fst snd]. rewrite <- !app_assoc. reflexivity.
  - cbn. unfold t_text. cbn. rewrite app_nil_r. reflexivity.
Qed.
Definition tfact_ok (x : shape_id * option tfact) : Prop :=
  valid_id (fst x) /\ match snd x with Some pl => steps_ok (fst pl) | None => True end.
Lemma ts_facts_ok ts : lined_traits ts -> Forall tfact_ok (ts_facts ts).
Proof.
  intros [_ F]. unfold ts_facts, tagged_facts. induction F as [|[t o] ts [V L] _ IH]; cbn [flat_map]; [constructor|].
  apply Forall_app. split; [|exact IH]. cbn [fst snd] in *. destruct o as [v|]; cbn [tv_facts].
  - rewrite map_map. apply Forall_map. eapply Forall_impl; [|apply vfacts_steps, L]. intros pl S. split; [exact V|exact S].
  - constructor; [split; [exact V|exact I]|constructor].
Qed.
(** Characters of ids. *)
Definition idc (c : ascii) : bool := cls_word c || Ascii.eqb c "." || Ascii.eqb c "#" || Ascii.eqb c "$".
Lemma id_chars i : valid_id i -> Forall (fun c => idc c = true) (sid_display i).
Proof.
  assert (W : forall s, Forall (fun c => cls_word c = true) s -> Forall (fun c => idc c = true) s).
  { intros s. apply Forall_impl. intros c C. unfold idc. rewrite C. reflexivity. }
  intros (N & S & M). unfold sid_display. apply Forall_app; split; [apply Forall_app; split|apply Forall_app; split].
  - apply namespace_chars in N. revert N. apply Forall_impl. intros c C. unfold idc, ns_char in *.
    change dot with "."%char in C. rewrite C. reflexivity.
  - repeat constructor.
  - apply W, identifier_word, S.
  - destruct (sid_member i); [|constructor]. apply Forall_app; split; [repeat constructor|]. apply W, identifier_word, M.
Qed.
Lemma sid_display_inj i j : valid_id i -> valid_id j -> sid_display i = sid_display j -> i = j.
Proof. intros Vi Vj E. rewrite !sid_display_text in E. apply id_text_inj; assumption. Qed.
(** An id followed by nothing or by a character that no id contains. *)
Definition ends (r : str) : Prop := match r with [] => True | c :: _ => idc c = false end.
Lemma id_cut i j r s : valid_id i -> valid_id j -> ends r -> ends s -> sid_display i ++ r = sid_display j ++ s -> i = j /\ r = s.
Proof.
  intros Vi Vj Er Es E.
  assert (X : sid_display i = sid_display j /\ r = s).
  { assert (Ci := id_chars i Vi). assert (Cj := id_chars j Vj). revert E Ci Cj. generalize (sid_display i) (sid_display j). clear Vi Vj.
    induction l as [|c l IH]; intros [|d m] E Ci Cj; cbn in E.
    - auto.
    - subst r. cbn in Er. inversion Cj; subst. congruence.
    - subst s. cbn in Es. inversion Ci; subst. congruence.
    - injection E as -> E. inversion Ci; inversion Cj; subst. destruct (IH m E) as [-> ->]; auto. }
  destruct X as [X ->]. split; [apply sid_display_inj; assumption|reflexivity].
Qed.
Lemma id_word i w c r s : valid_id i -> wordy w -> cls_word c = false -> c <> "."%char -> c <> "#"%char -> sid_display i ++ r <> w ++ c :: s.
Proof.
  intros (N & S & M) W C D1 D2 E. destruct N as (ids & Ne & F & En). unfold sid_display in E. rewrite En, <- !app_assoc in E.
  destruct F as [|x ids Fx F]; [congruence|]. assert (Wx := identifier_word x Fx).
  destruct ids as [|y ids]; cbn [join] in E.
  - cbn [app] in E. apply (word_cut cls_word) in E as (_ & E & _); auto; congruence.
  - rewrite <- !app_assoc in E. cbn [app] in E. apply (word_cut cls_word) in E as (_ & E & _); auto; congruence.
Qed.
Lemma ends_val r : ends (match r with None => [] | Some pl => val ++ pl_text pl end). Proof. destruct r; reflexivity. Qed.
Lemma t_text_inj a b : tfact_ok a -> tfact_ok b -> t_text a = t_text b -> a = b.
Proof.
  destruct a as [i o], b as [j p]. intros [Vi So] [Vj Sp]. unfold t_text. cbn [fst snd] in *. intros E.
  apply id_cut in E as [-> E]; auto using ends_val. f_equal. destruct o as [x|], p as [y|]; try discriminate E; [|reflexivity].
  injection E as E. apply pl_text_inj in E; auto. congruence.
Qed.

(** ** Shapes *)
Inductive detail :=
| DDef
| DTo (n : str) (t : shape_id)
| DOn (n : str) (x : shape_id * option tfact)
| DTrait (x : shape_id * option tfact)
| DVersion (s : str)
| DRename (i : shape_id) (n : str)
| DIdent (n : str) (t : shape_id).
Section Debug.
  Variable debug_str : str -> str.
  Definition detail_text (d : detail) : str :=
    match d with
    | DDef => []
    | DTo n t => sep ++ n ++ tgt ++ sid_display t
    | DOn n x => sep ++ n ++ sep ++ lit "trait" ++ sep ++ t_text x
    | DTrait x => sep ++ lit "trait" ++ sep ++ t_text x
    | DVersion s => sep ++ lit "version" ++ val ++ debug_str s
    | DRename i n => sep ++ lit "rename" ++ sep ++ sid_display i ++ val ++ n
    | DIdent n t => sep ++ lit "identifier" ++ sep ++ n ++ tgt ++ sid_display t
    end.
  Definition detail_ok (d : detail) : Prop :=
    match d with
    | DDef | DVersion _ => True
    | DTo n t | DIdent n t => wordy n /\ valid_id t
    | DOn n x => wordy n /\ tfact_ok x
    | DTrait x => tfact_ok x
    | DRename i _ => valid_id i
    end.
  Hypothesis debug_inj : forall a b, debug_str a = debug_str b -> a = b.
  Definition d_head (d : detail) : str :=
    match d with
    | DDef => [] | DTo n _ | DOn n _ => n | DTrait _ => lit "trait" | DVersion _ => lit "version"
    | DRename _ _ => lit "rename" | DIdent _ _ => lit "identifier"
    end.
  Definition d_tail (d : detail) : str :=
    match d with
    | DDef => []
    | DTo _ t => tgt ++ sid_display t
    | DOn _ x => sep ++ lit "trait" ++ sep ++ t_text x
    | DTrait x => sep ++ t_text x
    | DVersion s => val ++ debug_str s
    | DRename i n => sep ++ sid_display i ++ val ++ n
    | DIdent n t => sep ++ n ++ tgt ++ sid_display t
    end.
  Lemma detail_split d : d <> DDef -> detail_ok d ->
    detail_text d = sep ++ d_head d ++ d_tail d /\ wordy (d_head d) /\ exists c r, d_tail d = c :: r /\ cls_word c = false.
  Proof.
    intros N O. destruct d; cbn [detail_text d_head d_tail detail_ok] in *; try congruence; (split; [rewrite <- ?app_assoc; reflexivity|]);
      (split; [first [apply O|apply wordy_lit; reflexivity]|]); eexists; eexists; (split; [reflexivity|reflexivity]).
  Qed.
  Lemma detail_text_inj a b : detail_ok a -> detail_ok b -> detail_text a = detail_text b -> a = b.
  Proof.
    intros Oa Ob E.
    assert (Ha : a = DDef \/ a <> DDef) by (destruct a; auto; right; discriminate).
    assert (Hb : b = DDef \/ b <> DDef) by (destruct b; auto; right; discriminate).
    destruct Ha as [->|Na], Hb as [->|Nb]; [reflexivity| | |].
    { destruct (detail_split b Nb Ob) as (X & _). rewrite X in E. discriminate E. }
    { destruct (detail_split a Na Oa) as (X & _). rewrite X in E. discriminate E. }
    destruct (detail_split a Na Oa) as (Xa & Wa & ca & ra & Ta & Ca). destruct (detail_split b Nb Ob) as (Xb & Wb & cb & rb & Tb & Cb).
    rewrite Xa, Xb, Ta, Tb in E. apply app_inv_head in E. apply (word_cut cls_word) in E as (Eh & Ec & Er); auto.
    assert (Et : d_tail a = d_tail b) by congruence. clear Xa Xb Ta Tb ca ra cb rb Ca Cb Ec Er Wa Wb.
    assert (W1 : wordy (lit "trait")) by (apply wordy_lit; reflexivity).
    assert (NW : forall i x s, valid_id i -> sid_display i ++ x <> lit "trait" ++ ":"%char :: s).
    { intros i x s V. apply id_word; auto; try reflexivity; discriminate. }
    assert (NT : forall x s, tfact_ok x -> t_text x <> lit "trait" ++ ":"%char :: s).
    { intros x s [V _]. apply NW, V. }
    assert (NI : forall n t s, wordy n -> n ++ tgt ++ t <> lit "trait" ++ ":"%char :: s).
    { intros n t s W X. change (n ++ "="%char :: (">"%char :: t) = lit "trait" ++ ":"%char :: s) in X.
      apply (word_cut cls_word) in X as (_ & X & _); auto. discriminate X. }
    destruct a as [|n t|n x|x|s|i n|n t], b as [|m u|m y|y|s'|j m|m u]; try congruence;
      cbn [d_head d_tail detail_ok] in *; try discriminate Eh; try discriminate Et.
    - apply app_inv_head in Et. apply sid_display_inj in Et; [|apply Oa|apply Ob]. congruence.
    - do 3 apply app_inv_head in Et. apply t_text_inj in Et; [|apply Oa|apply Ob]. congruence.
    - exfalso. apply app_inv_head in Et. symmetry in Et. revert Et. apply NT, Ob.
    - exfalso. apply app_inv_head in Et. symmetry in Et. revert Et. apply NW, Ob.
    - exfalso. apply app_inv_head in Et. symmetry in Et. revert Et. apply NI, Ob.
    - exfalso. apply app_inv_head in Et. revert Et. apply NT, Oa.
    - apply app_inv_head in Et. apply t_text_inj in Et; [|apply Oa|apply Ob]. congruence.
    - apply app_inv_head in Et. apply debug_inj in Et. congruence.
    - exfalso. apply app_inv_head in Et. revert Et. apply NW, Oa.
    - apply app_inv_head in Et. apply id_cut in Et as [-> Et]; [|exact Oa|exact Ob|reflexivity|reflexivity].
      apply app_inv_head in Et. congruence.
    - exfalso. apply app_inv_head in Et. revert Et. apply NI, Oa.
    - apply app_inv_head in Et. apply (word_cut cls_word) in Et as (-> & _ & Et); [|apply Oa|apply Ob|reflexivity|reflexivity].
      injection Et as Et. apply sid_display_inj in Et; [|apply Oa|apply Ob]. congruence.
  Qed.
  Lemma detail_ends d : ends (detail_text d).
  Proof. destruct d; try exact I; reflexivity. Qed.
End Debug.

Definition opt_list {A} (o : option A) : list A := match o with Some x => [x] | None => [] end.
Lemma opt_list_perm {A} (a b : option A) : Permutation (opt_list a) (opt_list b) -> a = b.
Proof.
  destruct a, b; cbn; intros P; try reflexivity.
  - apply Permutation_length_1 in P. congruence.
  - apply Permutation_sym, Permutation_nil in P. discriminate.
  - apply Permutation_nil in P. discriminate.
Qed.
Definition member_facts (m : member_shape) : list detail := DTo (ms_id m) (ms_target m) :: map (DOn (ms_id m)) (ts_facts (ms_traits m)).
Definition body_facts (b : shape_kind) : list detail :=
  match b with
  | KSimple _ | KUnresolved => []
  | KList m | KSet m => member_facts m
  | KMap k v => member_facts k ++ member_facts v
  | KStructure ms | KUnion ms => flat_map (fun e => member_facts (snd e)) ms
  | KService v =>
      [DVersion (sv_version v)] ++ map (DTo (lit "operation")) (sv_operations v) ++ map (DTo (lit "resource")) (sv_resources v)
      ++ map (fun e => DRename (fst e) (snd e)) (sv_renames v)
  | KOperation o =>
      map (DTo (lit "input")) (opt_list (op_input o)) ++ map (DTo (lit "output")) (opt_list (op_output o))
      ++ map (DTo (lit "error")) (op_errors o)
  | KResource r =>
      map (fun e => DIdent (fst e) (snd e)) (rs_identifiers r)
      ++ map (DTo (lit "create")) (opt_list (rs_create r)) ++ map (DTo (lit "put")) (opt_list (rs_put r))
      ++ map (DTo (lit "read")) (opt_list (rs_read r)) ++ map (DTo (lit "update")) (opt_list (rs_update r))
      ++ map (DTo (lit "delete")) (opt_list (rs_delete r)) ++ map (DTo (lit "list")) (opt_list (rs_list r))
      ++ map (DTo (lit "operation")) (rs_operations r)
      ++ map (DTo (lit "collection_operation")) (rs_collection_operations r)
      ++ map (DTo (lit "resource")) (rs_resources r)
  end.
Definition details (s : shape) : list detail := DDef :: body_facts (ts_body s) ++ map DTrait (ts_facts (ts_traits s)).
Definition shape_facts (s : shape) : list (str * detail) := map (pair (kind_name (ts_body s))) (details s).

Section Forms.
  Variables (f64_str : Z -> str) (debug_str : str -> str).
  Local Notation dtext := (detail_text debug_str).
  Lemma member_lines_facts prefix m : lined_member m ->
    member_lines f64_str prefix m = map (fun d => prefix ++ dtext d) (member_facts m).
  Proof.
    intros (_ & _ & T). unfold member_lines, member_facts. cbn [map]. f_equal; [cbn [detail_text]; rewrite <- !app_assoc; reflexivity|].
    rewrite traits_lines_facts by exact T. rewrite map_map. apply map_ext. intros x. unfold trait_prefix. cbn [detail_text].
    rewrite <- !app_assoc. reflexivity.
  Qed.
  Lemma id_lines_facts prefix n l : id_lines prefix n l = map (fun d => prefix ++ dtext d) (map (DTo n) l).
  Proof. unfold id_lines. rewrite map_map. reflexivity. Qed.
  Lemma opt_line_facts prefix n o : opt_line prefix n o = map (fun d => prefix ++ dtext d) (map (DTo n) (opt_list o)).
  Proof. destruct o; reflexivity. Qed.
  Lemma body_lines_facts prefix b : lined_body b ->
    body_lines f64_str debug_str prefix b = map (fun d => prefix ++ dtext d) (body_facts b).
  Proof.
    intros L. destruct b as [| |m|k v|ms|ms|s|o|r|]; cbn [body_lines body_facts lined_body] in *; try reflexivity;
      try (apply member_lines_facts, L).
    - destruct L as (_ & _ & Lk & Lv). rewrite map_app, !member_lines_facts by assumption. reflexivity.
    - destruct L as [_ F]. induction F as [|e l [_ M] _ IH]; cbn [flat_map]; [reflexivity|]. rewrite map_app, IH, member_lines_facts by exact M. reflexivity.
    - destruct L as [_ F]. induction F as [|e l [_ M] _ IH]; cbn [flat_map]; [reflexivity|]. rewrite map_app, IH, member_lines_facts by exact M. reflexivity.
    - rewrite !map_app, !id_lines_facts, !map_map. reflexivity.
    - rewrite !map_app, !id_lines_facts, !opt_line_facts. reflexivity.
    - rewrite !map_app, !id_lines_facts, !opt_line_facts, !map_map. reflexivity.
  Qed.
  Definition shape_fact_text (x : shape_id * (str * detail)) : str :=
    fst (snd x) ++ sep ++ sid_display (fst x) ++ dtext (snd (snd x)).
  Lemma shape_lines_facts s : lined_traits (ts_traits s) -> lined_body (ts_body s) ->
    shape_lines f64_str debug_str s = map shape_fact_text (map (pair (ts_id s)) (shape_facts s)).
  Proof.
    intros T B. unfold shape_lines, shape_facts, details, line_prefix. cbn [map]. f_equal.
    - unfold shape_fact_text. cbn. rewrite app_nil_r. reflexivity.
    - rewrite traits_lines_facts by exact T. rewrite body_lines_facts by exact B. rewrite !map_app, !map_map. f_equal; apply map_ext; intros x;
        unfold shape_fact_text; cbn [fst snd]; unfold trait_prefix; cbn [detail_text]; rewrite <- !app_assoc; reflexivity.
  Qed.
  Definition meta_fact_text (x : str * (list step * leaf)) : str := lit "meta" ++ sep ++ fst x ++ val ++ pl_text (snd x).
  Definition fact : Type := (str * (list step * leaf)) + (shape_id * (str * detail)).
  Definition fact_text (x : fact) : str := match x with inl y => meta_fact_text y | inr y => shape_fact_text y end.
  Definition facts (m : model) : list fact :=
    map inl (tagged_facts vfacts (m_metadata m)) ++ map inr (tagged_facts shape_facts (m_shapes m)).
  Lemma form_facts m : lined_model m ->
    make_line_oriented_form f64_str debug_str m = sort_strings (map fact_text (facts m)).
  Proof.
    intros ((_ & Fm) & _ & Fs). unfold make_line_oriented_form, facts. rewrite shapes_flat, map_app, !map_map. f_equal. f_equal.
    - unfold tagged_facts. induction Fm as [|[k v] l [_ L] _ IH]; cbn [flat_map]; [reflexivity|].
      rewrite map_app, IH. f_equal. cbn [fst snd] in *. unfold metadata_lines. cbn [fst snd]. rewrite value_lines_facts by exact L.
      rewrite map_map. apply map_ext. intros pl. cbn [fact_text]. unfold meta_fact_text. cbn [fst snd]. rewrite <- !app_assoc. reflexivity.
    - unfold tagged_facts. induction Fs as [|[k s] l (E & V & T & B) _ IH]; cbn [flat_map]; [reflexivity|].
      rewrite map_app, IH. f_equal. cbn [fst snd] in *. subst k. rewrite shape_lines_facts by assumption. reflexivity.
  Qed.
  Definition fact_ok (x : fact) : Prop :=
    match x with
    | inl (k, pl) => ~ In "<"%char k /\ steps_ok (fst pl)
    | inr (i, (kd, d)) => valid_id i /\ (exists b, kd = kind_name b) /\ detail_ok d
    end.
  Lemma member_facts_ok m : lined_member m -> Forall detail_ok (member_facts m).
  Proof.
    intros (N & V & T). assert (W := identifier_word _ N). constructor; [split; assumption|]. apply Forall_map.
    eapply Forall_impl; [|apply ts_facts_ok, T]. intros x Ox. split; assumption.
  Qed.
  Lemma to_ok n l : forallb cls_word n = true -> Forall valid_id l -> Forall detail_ok (map (DTo n) l).
  Proof.
    intros W F. apply Forall_map. eapply Forall_impl; [|exact F]. intros t V. split; [|exact V].
    apply Forall_forall. intros c I. rewrite forallb_forall in W. auto.
  Qed.
  Lemma opt_ok o : valid_opt o -> Forall valid_id (opt_list o).
  Proof. destruct o; intros V; repeat constructor; apply V. Qed.
  Lemma body_facts_ok b : lined_body b -> Forall detail_ok (body_facts b).
  Proof.
    intros L. destruct b as [|m|m|k v|ms|ms|s|o|r|]; cbn [body_facts lined_body] in *; try (constructor; fail); try (apply member_facts_ok, L).
    - destruct L as (_ & _ & Lk & Lv). apply Forall_app. split; apply member_facts_ok; assumption.
    - destruct L as [_ F]. apply Forall_flat_map. eapply Forall_impl; [|exact F]. intros e [_ M]. apply member_facts_ok, M.
    - destruct L as [_ F]. apply Forall_flat_map. eapply Forall_impl; [|exact F]. intros e [_ M]. apply member_facts_ok, M.
    - destruct L as (L1 & L2 & L3). repeat (apply Forall_app; split); try (apply to_ok; [reflexivity|assumption]).
      + repeat constructor.
      + apply Forall_map. unfold valid_ids in L3. rewrite Forall_map in L3. exact L3.
    - destruct L as (L1 & L2 & L3). repeat (apply Forall_app; split); apply to_ok; try reflexivity; try apply opt_ok; assumption.
    - destruct L as (L1 & L2 & L3 & L4 & L5 & L6 & L7 & L8 & L9 & L10).
      repeat (apply Forall_app; split); try (apply to_ok; try reflexivity; try apply opt_ok; assumption).
      apply Forall_map. eapply Forall_impl; [|exact L1]. intros e [N V]. split; [apply identifier_word, N|exact V].
  Qed.
  Lemma facts_ok m : lined_model m -> Forall fact_ok (facts m).
  Proof.
    intros ((_ & Fm) & _ & Fs). apply Forall_app. split; apply Forall_map; unfold tagged_facts; apply Forall_flat_map.
    - eapply Forall_impl; [|exact Fm]. intros [k v] [N L]. apply Forall_map. eapply Forall_impl; [|apply vfacts_steps, L].
      intros pl S. split; assumption.
    - eapply Forall_impl; [|exact Fs]. intros [k s] (E & V & T & B). cbn [fst snd] in *. subst k. unfold shape_facts.
      rewrite map_map. apply Forall_map.
      assert (O : Forall detail_ok (details s)).
      { constructor; [exact I|]. apply Forall_app. split; [apply body_facts_ok, B|]. apply Forall_map, ts_facts_ok, T. }
      eapply Forall_impl; [|exact O]. intros d Od. split; [exact V|]. split; [eauto|exact Od].
  Qed.
  Hypothesis debug_inj : forall a b, debug_str a = debug_str b -> a = b.
  Lemma fact_text_inj a b : fact_ok a -> fact_ok b -> fact_text a = fact_text b -> a = b.
  Proof.
    assert (Wm : wordy (lit "meta")) by (apply wordy_lit; reflexivity).
    assert (X : forall k pl i kd d, (exists b, kd = kind_name b) -> meta_fact_text (k, pl) <> shape_fact_text (i, (kd, d))).
    { intros k pl i kd d (b0 & ->) E. unfold meta_fact_text, shape_fact_text in E. cbn [fst snd] in E. unfold sep in E.
      change (lit "meta" ++ ":"%char :: (":"%char :: k ++ val ++ pl_text pl) = kind_name b0 ++ ":"%char :: (":"%char :: sid_display i ++ dtext d)) in E.
      apply (word_cut cls_word) in E as (E & _); auto; [|apply kind_wordy]. symmetry in E. exact (kind_not_meta _ E). }
    destruct a as [[k pl]|[i [kd d]]], b as [[k' pl']|[i' [kd' d']]]; cbn [fact_ok fact_text]; intros Oa Ob E.
    - destruct Oa as [N S], Ob as [N' S']. unfold meta_fact_text in E. cbn [fst snd] in E. do 2 apply app_inv_head in E.
      assert (NL : forall k, ~ In "<"%char k -> Forall (fun c => negb (Ascii.eqb c "<") = true) k).
      { intros q Nq. apply Forall_forall. intros c I. destruct (Ascii.eqb c "<") eqn:Q; [|reflexivity]. apply Ascii.eqb_eq in Q. subst c. contradiction. }
      apply (word_cut (fun c => negb (Ascii.eqb c "<"))) in E as (-> & _ & E); auto. injection E as E. apply pl_text_inj in E; auto. congruence.
    - exfalso. apply X in E; tauto.
    - exfalso. symmetry in E. apply X in E; tauto.
    - destruct Oa as (V & (b1 & ->) & O), Ob as (V' & (b2 & ->) & O'). unfold shape_fact_text in E. cbn [fst snd] in E. unfold sep in E.
      apply (word_cut cls_word) in E as (-> & _ & E); [|apply kind_wordy|apply kind_wordy|reflexivity|reflexivity]. injection E as E.
      apply id_cut in E as [-> E]; auto using detail_ends. apply (detail_text_inj debug_str debug_inj) in E; auto. congruence.
  Qed.
  Lemma same_lines_same_facts m1 m2 : lined_model m1 -> lined_model m2 ->
    make_line_oriented_form f64_str debug_str m1 = make_line_oriented_form f64_str debug_str m2 -> Permutation (facts m1) (facts m2).
  Proof.
    intros L1 L2 E. rewrite (form_facts m1 L1), (form_facts m2 L2) in E. apply sort_strings_eq in E.
    eapply (perm_map_inj fact_text fact_ok); eauto using facts_ok, fact_text_inj.
  Qed.
End Forms.

(** ** From the facts to the model *)
Definition meta_of (x : fact) : list (str * (list step * leaf)) := match x with inl y => [y] | inr _ => [] end.
Definition shape_of (x : fact) : list (shape_id * (str * detail)) := match x with inr y => [y] | inl _ => [] end.
Lemma sel_same {A B C} (sel : B -> list C) (f : A -> B) (g : A -> C) l : (forall x, sel (f x) = [g x]) -> flat_map sel (map f l) = map g l.
Proof. intros E. induction l as [|x l IH]; cbn; [reflexivity|]. rewrite E, IH. reflexivity. Qed.
Lemma sel_none {A B C} (sel : B -> list C) (f : A -> B) l : (forall x, sel (f x) = []) -> flat_map sel (map f l) = [].
Proof. intros E. induction l as [|x l IH]; cbn; [reflexivity|]. rewrite E, IH. reflexivity. Qed.
Lemma meta_facts m : flat_map meta_of (facts m) = tagged_facts vfacts (m_metadata m).
Proof.
  unfold facts. rewrite flat_map_app. rewrite (sel_same meta_of inl (fun x => x)) by reflexivity. rewrite (sel_none meta_of inr) by reflexivity.
  rewrite app_nil_r, map_id. reflexivity.
Qed.
Lemma shapes_facts m : flat_map shape_of (facts m) = tagged_facts shape_facts (m_shapes m).
Proof.
  unfold facts. rewrite flat_map_app. rewrite (sel_same shape_of inr (fun x => x)) by reflexivity. rewrite (sel_none shape_of inl) by reflexivity.
  rewrite map_id. reflexivity.
Qed.
Lemma kind_name_same a b : kind_name a = kind_name b -> same_kind a b.
Proof.
  destruct a as [x| | | | | | | | |], b as [y| | | | | | | | |]; cbn; intros E; try exact I; try discriminate E;
    try (destruct x; discriminate E); try (destruct y; discriminate E).
  destruct x, y; try reflexivity; discriminate E.
Qed.
Definition sel_trait (d : detail) := match d with DTrait x => [x] | _ => [] end.
Definition sel_to (n : str) (d : detail) : list shape_id := match d with DTo n' t => if str_eqb n' n then [t] else [] | _ => [] end.
Definition sel_version (d : detail) : list str := match d with DVersion s => [s] | _ => [] end.
Definition sel_rename (d : detail) : list (shape_id * str) := match d with DRename i n => [(i, n)] | _ => [] end.
Definition sel_ident (d : detail) : list (str * shape_id) := match d with DIdent i n => [(i, n)] | _ => [] end.
Definition mfact : Type := shape_id + (shape_id * option tfact).
Definition sel_member (d : detail) : list (str * mfact) := match d with DTo n t => [(n, inl t)] | DOn n x => [(n, inr x)] | _ => [] end.
Definition not_trait (d : detail) : list detail := match d with DTrait _ | DDef => [] | _ => [d] end.
Definition mfacts (m : member_shape) : list mfact := inl (ms_target m) :: map inr (ts_facts (ms_traits m)).
Lemma sel_member_facts m : flat_map sel_member (member_facts m) = map (pair (ms_id m)) (mfacts m).
Proof.
  unfold member_facts, mfacts. cbn. f_equal. rewrite (sel_same sel_member (DOn (ms_id m)) (fun x => (ms_id m, inr x))) by reflexivity.
  rewrite map_map. reflexivity.
Qed.
Definition target_of (x : mfact) : list shape_id := match x with inl t => [t] | inr _ => [] end.
Definition on_of (x : mfact) : list (shape_id * option tfact) := match x with inr t => [t] | inl _ => [] end.
Lemma mfacts_perm a b : lined_member a -> lined_member b -> ms_id a = ms_id b -> Permutation (mfacts a) (mfacts b) -> reorder_member a b.
Proof.
  intros (_ & _ & Ta) (_ & _ & Tb) E P. split; [exact E|].
  assert (P1 := flat_map_perm target_of _ _ P). assert (P2 := flat_map_perm on_of _ _ P).
  unfold mfacts in P1, P2. cbn [flat_map target_of on_of app] in P1, P2.
  rewrite !(sel_none target_of inr) in P1 by reflexivity. rewrite !(sel_same on_of inr (fun x => x)), !map_id in P2 by reflexivity.
  apply Permutation_length_1 in P1. split; [exact P1|]. apply ts_perm; assumption.
Qed.
Lemma members_facts ms : Forall (fun e => fst e = ms_id (snd e) /\ lined_member (snd e)) ms ->
  flat_map sel_member (flat_map (fun e => member_facts (snd e)) ms) = tagged_facts mfacts ms.
Proof.
  induction 1 as [|[k m] ms [E _] _ IH]; [reflexivity|]. cbn [flat_map tagged_facts]. cbn [fst snd] in *. subst k.
  rewrite flat_map_app, IH, sel_member_facts. reflexivity.
Qed.
Lemma members_perm a b : lined_members a -> lined_members b ->
  Permutation (flat_map (fun e => member_facts (snd e)) a) (flat_map (fun e => member_facts (snd e)) b) -> reordered reorder_member a b.
Proof.
  intros [Na Fa] [Nb Fb] P. apply (flat_map_perm sel_member) in P. rewrite !members_facts in P by assumption.
  apply (group (list_eq_dec Ascii.ascii_dec)) in P; auto; try (intros; unfold mfacts; discriminate).
  eapply reordered_weaken; [|exact P]. intros k v w I1 I2 R. rewrite Forall_forall in Fa, Fb.
  destruct (Fa _ I1) as [E1 L1]. destruct (Fb _ I2) as [E2 L2]. apply mfacts_perm; auto. cbn in *. congruence.
Qed.
Lemma member_perm a b : lined_member a -> lined_member b -> Permutation (member_facts a) (member_facts b) -> reorder_member a b.
Proof.
  intros La Lb P. apply (flat_map_perm sel_member) in P. rewrite !sel_member_facts in P.
  assert (E : ms_id a = ms_id b).
  { assert (I : In (ms_id a, inl (ms_target a)) (map (pair (ms_id b)) (mfacts b))) by (eapply Permutation_in; [exact P|left; reflexivity]).
    apply in_map_iff in I as (x & E & _). congruence. }
  apply mfacts_perm; auto. apply (Permutation_map snd) in P. rewrite !map_map, !map_id in P. exact P.
Qed.
Lemma map_perm k v k' v' :
  ms_id k = lit "key" -> ms_id v = lit "value" -> ms_id k' = lit "key" -> ms_id v' = lit "value" ->
  lined_member k -> lined_member v -> lined_member k' -> lined_member v' ->
  Permutation (member_facts k ++ member_facts v) (member_facts k' ++ member_facts v') -> reorder_member k k' /\ reorder_member v v'.
Proof.
  intros Ek Ev Ek' Ev' Lk Lv Lk' Lv' P. apply (flat_map_perm sel_member) in P. rewrite !flat_map_app, !sel_member_facts, Ek, Ev, Ek', Ev' in P.
  assert (D : lit "key" <> lit "value") by discriminate. assert (D' : lit "value" <> lit "key") by discriminate.
  set (dec := list_eq_dec Ascii.ascii_dec).
  assert (P1 := flat_map_perm (here dec (lit "key")) _ _ P). assert (P2 := flat_map_perm (here dec (lit "value")) _ _ P).
  rewrite !flat_map_app, !here_pair in P1, P2. rewrite !(here_other dec) in P1, P2 by assumption. rewrite !app_nil_r in P1. cbn [app] in P2.
  split; apply mfacts_perm; auto; congruence.
Qed.
Lemma sel_to_same n l : flat_map (sel_to n) (map (DTo n) l) = l.
Proof. rewrite (sel_same (sel_to n) (DTo n) (fun x => x)), map_id; [reflexivity|]. intros x. cbn. rewrite str_eqb_refl. reflexivity. Qed.
Lemma sel_to_other n n' l : str_eqb n' n = false -> flat_map (sel_to n) (map (DTo n') l) = [].
Proof. intros E. apply sel_none. intros x. cbn. rewrite E. reflexivity. Qed.
Lemma sel_to_rename n l : flat_map (sel_to n) (map (fun e => DRename (fst e) (snd e)) l) = []. Proof. apply sel_none. reflexivity. Qed.
Lemma sel_to_ident n l : flat_map (sel_to n) (map (fun e => DIdent (fst e) (snd e)) l) = []. Proof. apply sel_none. reflexivity. Qed.
Lemma sel_rename_to n l : flat_map sel_rename (map (DTo n) l) = []. Proof. apply sel_none. reflexivity. Qed.
Lemma sel_ident_to n l : flat_map sel_ident (map (DTo n) l) = []. Proof. apply sel_none. reflexivity. Qed.
Lemma sel_version_to n l : flat_map sel_version (map (DTo n) l) = []. Proof. apply sel_none. reflexivity. Qed.
Lemma sel_version_rename l : flat_map sel_version (map (fun e => DRename (fst e) (snd e)) l) = []. Proof. apply sel_none. reflexivity. Qed.
Lemma sel_rename_same l : flat_map sel_rename (map (fun e => DRename (fst e) (snd e)) l) = l.
Proof. rewrite (sel_same _ _ (fun x => x)), map_id; [reflexivity|]. intros []. reflexivity. Qed.
Lemma sel_ident_same l : flat_map sel_ident (map (fun e => DIdent (fst e) (snd e)) l) = l.
Proof. rewrite (sel_same _ _ (fun x => x)), map_id; [reflexivity|]. intros []. reflexivity. Qed.

Lemma body_perm a b : lined_body a -> lined_body b -> same_kind a b -> Permutation (body_facts a) (body_facts b) -> alike_body a b.
Proof.
  intros La Lb K P. destruct a as [|m|m|k v|ms|ms|s|o|r|], b as [|m'|m'|k' v'|ms'|ms'|s'|o'|r'|]; try (exfalso; exact K);
    cbn [body_facts lined_body same_kind] in *.
  - subst. constructor.
  - constructor. apply member_perm; assumption.
  - constructor. apply member_perm; assumption.
  - destruct La as (? & ? & ? & ?), Lb as (? & ? & ? & ?). apply map_perm in P as [P1 P2]; auto. constructor; assumption.
  - constructor. apply members_perm; assumption.
  - constructor. apply members_perm; assumption.
  - constructor. assert (PV := flat_map_perm sel_version _ _ P). assert (PR := flat_map_perm sel_rename _ _ P).
    assert (PT := fun n => flat_map_perm (sel_to n) _ _ P). clear P.
    rewrite !flat_map_app, !sel_version_to, !sel_version_rename in PV. apply Permutation_length_1 in PV.
    rewrite !flat_map_app, !sel_rename_to, !sel_rename_same in PR.
    assert (P1 := PT (lit "operation")). assert (P2 := PT (lit "resource")). clear PT.
    rewrite !flat_map_app, !sel_to_same, !sel_to_rename, !(sel_to_other (lit "operation") (lit "resource")) in P1 by reflexivity.
    rewrite !flat_map_app, !sel_to_same, !sel_to_rename, !(sel_to_other (lit "resource") (lit "operation")) in P2 by reflexivity.
    rewrite !app_nil_r in P1, P2. repeat split; assumption.
  - constructor. assert (PT := fun n => flat_map_perm (sel_to n) _ _ P). clear P.
    assert (P1 := PT (lit "input")). assert (P2 := PT (lit "output")). assert (P3 := PT (lit "error")). clear PT.
    rewrite !flat_map_app, !sel_to_same, !sel_to_other in P1, P2, P3 by reflexivity. cbn [app] in P1, P2, P3. rewrite ?app_nil_r in P1; rewrite ?app_nil_r in P2; rewrite ?app_nil_r in P3.
    split; [apply opt_list_perm, P1|]. split; [apply opt_list_perm, P2|exact P3].
  - constructor. assert (PI := flat_map_perm sel_ident _ _ P). assert (PT := fun n => flat_map_perm (sel_to n) _ _ P). clear P.
    rewrite !flat_map_app, !sel_ident_to, !sel_ident_same, !app_nil_r in PI. split; [exact PI|]. clear PI.
    assert (P1 := PT (lit "create")). assert (P2 := PT (lit "put")). assert (P3 := PT (lit "read")). assert (P4 := PT (lit "update")).
    assert (P5 := PT (lit "delete")). assert (P6 := PT (lit "list")). assert (P7 := PT (lit "operation")).
    assert (P8 := PT (lit "collection_operation")). assert (P9 := PT (lit "resource")). clear PT.
    rewrite !flat_map_app, !sel_to_same, !sel_to_ident, !sel_to_other in P1, P2, P3, P4, P5, P6, P7, P8, P9 by reflexivity.
    cbn [app] in *. repeat match goal with h : Permutation _ _ |- _ => progress rewrite ?app_nil_r in h end.
    do 6 (split; [apply opt_list_perm; assumption|]). repeat split; assumption.
  - constructor.
Qed.
Lemma body_facts_plain b : flat_map sel_trait (body_facts b) = [] /\ flat_map not_trait (body_facts b) = body_facts b.
Proof.
  assert (M : forall m, flat_map sel_trait (member_facts m) = [] /\ flat_map not_trait (member_facts m) = member_facts m).
  { intros m. unfold member_facts. cbn. split; [apply sel_none; reflexivity|]. f_equal.
    rewrite (sel_same not_trait (DOn (ms_id m)) (DOn (ms_id m))) by reflexivity. reflexivity. }
  assert (T : forall n l, flat_map sel_trait (map (DTo n) l) = [] /\ flat_map not_trait (map (DTo n) l) = map (DTo n) l).
  { intros n l. split; [apply sel_none; reflexivity|apply sel_same; reflexivity]. }
  assert (R : forall l, flat_map sel_trait (map (fun e : shape_id * str => DRename (fst e) (snd e)) l) = []
     /\ flat_map not_trait (map (fun e : shape_id * str => DRename (fst e) (snd e)) l) = map (fun e => DRename (fst e) (snd e)) l).
  { intros l. split; [apply sel_none; reflexivity|apply sel_same; reflexivity]. }
  assert (D : forall l, flat_map sel_trait (map (fun e : str * shape_id => DIdent (fst e) (snd e)) l) = []
     /\ flat_map not_trait (map (fun e : str * shape_id => DIdent (fst e) (snd e)) l) = map (fun e => DIdent (fst e) (snd e)) l).
  { intros l. split; [apply sel_none; reflexivity|apply sel_same; reflexivity]. }
  assert (Ms : forall ms : members, flat_map sel_trait (flat_map (fun e => member_facts (snd e)) ms) = []
     /\ flat_map not_trait (flat_map (fun e => member_facts (snd e)) ms) = flat_map (fun e => member_facts (snd e)) ms).
  { induction ms as [|e ms [IH1 IH2]]; [auto|]. cbn [flat_map]. rewrite !flat_map_app, IH1, IH2. destruct (M (snd e)) as [-> ->]. auto. }
  destruct b; cbn [body_facts]; rewrite ?flat_map_app; auto;
    repeat match goal with
    | |- context [flat_map sel_trait (member_facts ?m)] => rewrite (proj1 (M m))
    | |- context [flat_map not_trait (member_facts ?m)] => rewrite (proj2 (M m))
    end; auto.
  - cbn [flat_map sel_trait not_trait app]. rewrite !(proj1 (T _ _)), !(proj2 (T _ _)), (proj1 (R _)), (proj2 (R _)). auto.
  - rewrite !(proj1 (T _ _)), !(proj2 (T _ _)). auto.
  - rewrite !(proj1 (T _ _)), !(proj2 (T _ _)), (proj1 (D _)), (proj2 (D _)). auto.
Qed.
Lemma shape_perm a b :
  lined_traits (ts_traits a) -> lined_traits (ts_traits b) -> lined_body (ts_body a) -> lined_body (ts_body b) -> ts_id a = ts_id b ->
  Permutation (shape_facts a) (shape_facts b) -> alike_shape a b.
Proof.
  intros Ta Tb Ba Bb Ei P.
  assert (K : kind_name (ts_body a) = kind_name (ts_body b)).
  { assert (I : In (kind_name (ts_body a), DDef) (shape_facts b)) by (eapply Permutation_in; [exact P|left; reflexivity]).
    apply in_map_iff in I as (x & E & _). congruence. }
  apply (Permutation_map snd) in P. unfold shape_facts in P. rewrite !map_map, !map_id in P.
  assert (P1 := flat_map_perm sel_trait _ _ P). assert (P2 := flat_map_perm not_trait _ _ P).
  unfold details in P1, P2. cbn [flat_map sel_trait not_trait app] in P1, P2. rewrite !flat_map_app in P1, P2.
  rewrite !(proj1 (body_facts_plain _)) in P1. rewrite !(proj2 (body_facts_plain _)) in P2.
  rewrite !(sel_same sel_trait DTrait (fun x => x)), !map_id in P1 by reflexivity. rewrite !(sel_none not_trait DTrait), !app_nil_r in P2 by reflexivity.
  split; [exact Ei|]. split; [apply ts_perm; assumption|]. apply body_perm; auto. apply kind_name_same, K.
Qed.
Lemma same_lines_alike f64_str debug_str m1 m2 :
  (forall a b, debug_str a = debug_str b -> a = b) -> lined_model m1 -> lined_model m2 ->
  make_line_oriented_form f64_str debug_str m1 = make_line_oriented_form f64_str debug_str m2 -> alike_model m1 m2.
Proof.
  intros DI L1 L2 E. apply (same_lines_same_facts f64_str debug_str DI) in E; auto.
  assert (P1 := flat_map_perm meta_of _ _ E). assert (P2 := flat_map_perm shape_of _ _ E). rewrite !meta_facts in P1. rewrite !shapes_facts in P2.
  destruct L1 as ((N1 & F1) & M1 & S1), L2 as ((N2 & F2) & M2 & S2).
  split; [destruct (m_version m1), (m_version m2); reflexivity|]. split.
  - apply (group (list_eq_dec Ascii.ascii_dec)) in P1; auto using vfacts_some.
    eapply reordered_weaken; [|exact P1]. intros k v w I1 I2 R. rewrite Forall_forall in F1, F2.
    apply vfacts_perm; [apply (F1 _ I1)|apply (F2 _ I2)|exact R].
  - apply (group sid_dec) in P2; auto; try (intros; unfold shape_facts; discriminate).
    eapply reordered_weaken; [|exact P2]. intros k v w I1 I2 R. rewrite Forall_forall in S1, S2.
    destruct (S1 _ I1) as (E1 & _ & T1 & B1). destruct (S2 _ I2) as (E2 & _ & T2 & B2). cbn in *. apply shape_perm; auto. congruence.
Qed.

(** ** The converse *)
Section Converse.
  Variables (f64_str : Z -> str) (debug_str : str -> str).
  Lemma id_lines_perm prefix n a b : Permutation a b -> Permutation (id_lines prefix n a) (id_lines prefix n b).
  Proof. apply Permutation_map. Qed.
  Lemma body_lines_alike prefix a b : alike_body a b -> Permutation (body_lines f64_str debug_str prefix a) (body_lines f64_str debug_str prefix b).
  Proof.
    intros R. destruct R as [s|a b M|a b M|k v k' v' Mk Mv|a b M|a b M|a b M|a b M|a b M|]; cbn [body_lines]; try reflexivity.
    - apply member_lines_reorder, M.
    - apply member_lines_reorder, M.
    - apply Permutation_app; apply member_lines_reorder; assumption.
    - apply (reordered_lines _ _ _ _ M). intros; apply member_lines_reorder; assumption.
    - apply (reordered_lines _ _ _ _ M). intros; apply member_lines_reorder; assumption.
    - destruct M as (-> & P1 & P2 & P3). apply Permutation_app_head. apply Permutation_app; [apply id_lines_perm, P1|].
      apply Permutation_app; [apply id_lines_perm, P2|]. apply Permutation_map, P3.
    - destruct M as (-> & -> & P). do 2 apply Permutation_app_head. apply id_lines_perm, P.
    - destruct M as (P1 & -> & -> & -> & -> & -> & -> & P2 & P3 & P4). apply Permutation_app; [apply Permutation_map, P1|].
      do 6 apply Permutation_app_head. apply Permutation_app; [apply id_lines_perm, P2|].
      apply Permutation_app; apply id_lines_perm; assumption.
  Qed.
  Lemma shape_lines_alike a b : alike_shape a b -> Permutation (shape_lines f64_str debug_str a) (shape_lines f64_str debug_str b).
  Proof.
    intros (E & T & B). assert (K : kind_name (ts_body a) = kind_name (ts_body b)) by (destruct B; reflexivity).
    unfold shape_lines, line_prefix. rewrite K, E. constructor.
    apply Permutation_app; [apply body_lines_alike, B|apply traits_lines_reorder, T].
  Qed.
  Lemma form_alike a b : alike_model a b -> make_line_oriented_form f64_str debug_str a = make_line_oriented_form f64_str debug_str b.
  Proof.
    intros (_ & M & S). unfold make_line_oriented_form. apply sort_strings_eq. rewrite !shapes_flat. apply Permutation_app.
    - apply (reordered_lines _ _ _ _ M). intros k x y _ R. unfold metadata_lines. cbn [fst snd]. apply value_lines_reorder, R.
    - apply (reordered_lines _ (fun e => shape_lines f64_str debug_str (snd e)) _ _ S). intros k x y _ R. cbn [snd]. apply shape_lines_alike, R.
  Qed.
End Converse.
