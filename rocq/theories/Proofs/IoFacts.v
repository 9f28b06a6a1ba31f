(** Reading and writing models. *)
From Coq Require Import Lia ZifyN ZifyBool.
From Verif.Model Require Import Io Assembler.
From Verif.Spec Require Import IoSpec.
From Verif.Proofs Require Import BaseFacts.

(** ** UTF-8 *)
Lemma byte_val n : (n < 256)%N -> ch_N (ascii_of_N n) = n.
Proof. apply N_ascii_embedding. Qed.
Lemma byte_in_val lo hi n : (n < 256)%N -> byte_in lo hi (ascii_of_N n) = (lo <=? n)%N && (n <=? hi)%N.
Proof. intros L. unfold byte_in, in_range. rewrite byte_val by exact L. reflexivity. Qed.
Lemma encode_length c : length (encode c) <> 0.
Proof. unfold encode. destruct (c <? 128)%N, (c <? 2048)%N, (c <? 65536)%N; discriminate. Qed.
#[local] Ltac Zify.zify_post_hook ::= Z.div_mod_to_equations.
Ltac decide_byte :=
  match goal with
  | |- context [byte_in ?lo ?hi (ascii_of_N ?n)] =>
      rewrite (byte_in_val lo hi n) by lia;
      first [ replace ((lo <=? n)%N && (n <=? hi)%N) with true by lia
            | replace ((lo <=? n)%N && (n <=? hi)%N) with false by lia ]
  end; cbn [andb].
Lemma encode_ok c fuel s : scalar c -> utf8 (S fuel) (encode c ++ s) = utf8 fuel s.
Proof.
  unfold scalar, encode. intros S.
  destruct (c <? 128)%N eqn:A; [|destruct (c <? 2048)%N eqn:B; [|destruct (c <? 65536)%N eqn:C]]; cbn [bytes map app utf8].
  - decide_byte. reflexivity.
  - do 2 decide_byte. decide_byte. reflexivity.
  - do 3 decide_byte. destruct (N.eq_dec (c / 4096) 0) as [E|E]; [|destruct (N.eq_dec (c / 4096) 13) as [F|F]];
      repeat decide_byte; reflexivity.
  - do 4 decide_byte. destruct (N.eq_dec (c / 262144) 0) as [E|E]; [|destruct (N.eq_dec (c / 262144) 4) as [F|F]];
      repeat decide_byte; reflexivity.
Qed.

Lemma utf8_enough cs : (forall c, In c cs -> scalar c) -> forall fuel, length cs <= fuel -> utf8 fuel (flat_map encode cs) = true.
Proof.
  induction cs as [|c cs IH]; intros S fuel L; [destruct fuel; reflexivity|].
  destruct fuel as [|fuel]; [cbn in L; lia|]. cbn [flat_map]. rewrite encode_ok by (apply S; now left).
  apply IH; [intros; apply S; now right|cbn in L; lia].
Qed.
Lemma flat_encode_length cs : length cs <= length (flat_map encode cs).
Proof.
  induction cs as [|c cs IH]; [reflexivity|]. cbn [flat_map length]. rewrite app_length.
  pose proof (encode_length c). lia.
Qed.
Lemma byte_back a : exists n, (n < 256)%N /\ a = ascii_of_N n.
Proof. exists (ch_N a). split; [apply N_ascii_bounded|symmetry; apply ascii_N_embedding]. Qed.
Lemma encode_is c l : scalar c ->
  (l = [c] /\ c < 128
   \/ l = [192 + c / 64; 128 + c mod 64] /\ 128 <= c < 2048
   \/ l = [224 + c / 4096; 128 + (c / 64) mod 64; 128 + c mod 64] /\ 2048 <= c < 65536
   \/ l = [240 + c / 262144; 128 + (c / 4096) mod 64; 128 + (c / 64) mod 64; 128 + c mod 64] /\ 65536 <= c)%N ->
  encode c = bytes l.
Proof.
  intros S K. unfold encode. destruct K as [[-> L]|[[-> L]|[[-> L]|[-> L]]]];
    destruct (c <? 128)%N eqn:A; try lia; destruct (c <? 2048)%N eqn:B; try lia; destruct (c <? 65536)%N eqn:C; try lia; reflexivity.
Qed.
Lemma utf8_sound fuel : forall s, utf8 fuel s = true -> is_text s.
Proof.
  induction fuel as [|fuel IH]; intros s U.
  - destruct s; [|discriminate U]. exists []. split; [intros ? []|reflexivity].
  - destruct s as [|a s1]; [exists []; split; [intros ? []|reflexivity]|].
    assert (Q : forall c l rest, a :: s1 = bytes l ++ rest -> scalar c -> encode c = bytes l -> utf8 fuel rest = true -> is_text (a :: s1)).
    { intros c l rest E S Ec R. destruct (IH rest R) as (cs & F & ->). exists (c :: cs).
      split; [intros x [<-|I]; [exact S|apply F, I]|]. rewrite E. cbn [flat_map]. rewrite Ec. reflexivity. }
    cbn [utf8] in U. destruct (byte_back a) as (na & La & Ea). rewrite Ea in U.
    destruct (byte_in 0 127 (ascii_of_N na)) eqn:B1.
    { rewrite byte_in_val in B1 by lia. apply (Q na [na] s1); [rewrite Ea; reflexivity|unfold scalar; lia| |exact U].
      apply encode_is; [unfold scalar; lia|]. left. split; [reflexivity|lia]. }
    rewrite byte_in_val in B1 by lia. destruct s1 as [|b s2]; [discriminate U|]. destruct (byte_back b) as (nb & Lb & Eb). rewrite Eb in U.
    destruct (byte_in 194 223 (ascii_of_N na)) eqn:B2.
    { rewrite byte_in_val in B2 by lia. apply andb_true_iff in U as [U1 U2]. rewrite byte_in_val in U1 by lia.
      apply (Q ((na - 192) * 64 + (nb - 128))%N [na; nb] s2); [rewrite Ea, Eb; reflexivity|unfold scalar; lia| |exact U2].
      apply encode_is; [unfold scalar; lia|]. right. left. split; [|lia]. repeat f_equal; lia. }
    rewrite byte_in_val in B2 by lia. destruct s2 as [|c s3]; [discriminate U|]. destruct (byte_back c) as (nc & Lc & Ec). rewrite Ec in U.
    destruct (byte_in 224 239 (ascii_of_N na)) eqn:B3.
    { rewrite byte_in_val in B3 by lia. apply andb_true_iff in U as [U1 U2]. apply andb_true_iff in U1 as [U1 U3].
      rewrite !byte_in_val in U1 by lia. rewrite byte_in_val in U3 by lia.
      apply (Q ((na - 224) * 4096 + (nb - 128) * 64 + (nc - 128))%N [na; nb; nc] s3); [rewrite Ea, Eb, Ec; reflexivity| | |exact U2].
      - unfold scalar. destruct ((224 <=? na) && (na <=? 224))%N eqn:X; destruct ((237 <=? na) && (na <=? 237))%N eqn:Y; lia.
      - apply encode_is.
        + unfold scalar. destruct ((224 <=? na) && (na <=? 224))%N eqn:X; destruct ((237 <=? na) && (na <=? 237))%N eqn:Y; lia.
        + right. right. left.
          assert (V : (128 <= nb <= 191 /\ (na = 224 -> 160 <= nb))%N)
            by (destruct ((224 <=? na) && (na <=? 224))%N eqn:X; destruct ((237 <=? na) && (na <=? 237))%N eqn:Y; lia).
          clear U1. split; [|lia]. repeat f_equal; lia. }
    rewrite byte_in_val in B3 by lia. destruct s3 as [|d s4]; [discriminate U|]. destruct (byte_back d) as (nd & Ld & Ed). rewrite Ed in U.
    apply andb_true_iff in U as [U U5]. apply andb_true_iff in U as [U U4]. apply andb_true_iff in U as [U U3].
    apply andb_true_iff in U as [U1 U2]. rewrite !byte_in_val in U2 by lia. rewrite byte_in_val in U1, U3, U4 by lia.
    assert (V : (128 <= nb <= 191 /\ (na = 240 -> 144 <= nb) /\ (na = 244 -> nb <= 143))%N)
      by (destruct ((240 <=? na) && (na <=? 240))%N eqn:X; destruct ((244 <=? na) && (na <=? 244))%N eqn:Y; lia).
    clear U2.
    apply (Q ((na - 240) * 262144 + (nb - 128) * 4096 + (nc - 128) * 64 + (nd - 128))%N [na; nb; nc; nd] s4);
      [rewrite Ea, Eb, Ec, Ed; reflexivity|unfold scalar; lia| |exact U5].
    apply encode_is; [unfold scalar; lia|]. right. right. right. split; [|lia]. repeat f_equal; lia.
Qed.
Lemma from_utf8_spec s : (is_text s /\ from_utf8 s = Some s) \/ (~ is_text s /\ from_utf8 s = None).
Proof.
  unfold from_utf8. destruct (utf8 (length s) s) eqn:U; [left; split; [eapply utf8_sound, U|reflexivity]|].
  right. split; [|reflexivity]. intros (cs & S & ->). rewrite utf8_enough in U; [discriminate U|exact S|apply flat_encode_length].
Qed.
Lemma is_text_app a b : is_text a -> is_text b -> is_text (a ++ b).
Proof.
  intros (cs & S & ->) (ds & T & ->). exists (cs ++ ds). split; [|symmetry; apply flat_map_app].
  intros c I. apply in_app_iff in I as [I|I]; auto.
Qed.
Lemma is_text_concat l : (forall s, In s l -> is_text s) -> is_text (concat l).
Proof.
  induction l as [|s l IH]; intros T; [exists []; split; [intros ? []|reflexivity]|].
  apply is_text_app; [apply T; now left|apply IH; intros; apply T; now right].
Qed.

(** ** Sinks *)
Lemma run_buffer root w : forall t,
  run_writing root (SBuffer t) w = (root, SBuffer (t ++ concat (pieces w)), ending w).
Proof.
  induction w as [|e| |text r next IH]; intros t; cbn [run_writing pieces ending concat]; rewrite ?app_nil_r; try reflexivity.
  cbn [write_all]. rewrite IH, app_assoc. reflexivity.
Qed.
(** A file that is only open for reading. *)
Lemma run_read_only root p w : forall t,
  (concat (pieces w) = [] /\ run_writing root (SFile p false t) w = (root, SFile p false t, ending w))
  \/ (concat (pieces w) <> [] /\ exists e, run_writing root (SFile p false t) w = (root, SFile p false t, Err e)).
Proof.
  induction w as [|e| |text r next IH]; intros t; cbn [run_writing pieces ending concat]; try (left; split; reflexivity).
  destruct text as [|c text]; cbn [write_all app].
  - apply IH.
  - right. split; [discriminate|]. exists r. reflexivity.
Qed.
