(** Parsing expression grammars as pest 2.1 executes them (pest and pest_derive are not part of the
    repository; the grammars atelier-smithy/src/selector.pest and smithy.pest are). *)
From Verif.Model Require Export Base.

(** The first character of a UTF-8 text and what follows it; nothing for bytes that are not UTF-8,
    which Rust strings never contain (surrogates are not excluded). *)
Definition cont_bits (c : ascii) : N := (ch_N c mod 64)%N.
Definition at_least (lo n : N) (s : str) : option (N * str) := if (lo <=? n)%N then Some (n, s) else None.
Definition decode1 (s : str) : option (N * str) :=
  match s with
  | [] => None
  | a :: s1 =>
      let n := ch_N a in
      if (n <? 128)%N then Some (n, s1)
      else if (n <? 192)%N then None
      else if (n <? 224)%N then
        match s1 with b :: s2 => at_least 128 ((n mod 32) * 64 + cont_bits b) s2 | _ => None end
      else if (n <? 240)%N then
        match s1 with
        | b :: c :: s3 => at_least 2048 (((n mod 16) * 64 + cont_bits b) * 64 + cont_bits c) s3
        | _ => None
        end
      else
        match s1 with
        | b :: c :: d :: s4 =>
            at_least 65536 ((((n mod 8) * 64 + cont_bits b) * 64 + cont_bits c) * 64 + cont_bits d) s4
        | _ => None
        end
  end.

Section Peg.
  (** The names of the rules of a grammar. *)
  Context {R : Type}.

  (** Expressions: a literal, a range of characters, a rule, [a ~ b], [a | b], [a?], [a*], [!a], the
      end of the input. [PMore a] is the rest of a repetition that has matched once. [SOI] is the
      empty literal: it only stands at the start of the start rule. *)
  Inductive pexp :=
  | PStr (x : str)
  | PRange (lo hi : N)
  | PCall (r : R)
  | PSeq (a b : pexp)
  | PAlt (a b : pexp)
  | POpt (a : pexp)
  | PStar (a : pexp)
  | PMore (a : pexp)
  | PNot (a : pexp)
  | PEnd.
  (** [a+] is [a ~ a*]. *)
  Definition PPlus (a : pexp) : pexp := PSeq a (PStar a).

  (** [{ }], [_{ }] and [@{ }]. *)
  Inductive kind := Normal | Silent | Atomic.
  (** [WHITESPACE], where it is defined, is a choice of single characters. *)
  Record grammar := Grammar { g_rule : R -> kind * pexp; g_space : ascii -> bool }.

  (** A matched rule: [Pair::as_rule], [as_str] and [into_inner]. *)
  Inductive pair := Pair (rule : R) (text : str) (inner : list pair).
  Definition p_rule (p : pair) : R := match p with Pair r _ _ => r end.
  Definition p_text (p : pair) : str := match p with Pair _ t _ => t end.
  Definition p_inner (p : pair) : list pair := match p with Pair _ _ i => i end.

  Variable g : grammar.

  (** Implicit whitespace, between the parts of sequences and repetitions, outside of atomic rules. *)
  Fixpoint drop_space (s : str) : str :=
    match s with c :: s' => if g_space g c then drop_space s' else s | [] => [] end.
  Definition skip (atomic : bool) (s : str) : str := if atomic then s else drop_space s.
  (** What was consumed on the way from [s] to [rest]. *)
  Definition taken (s rest : str) : str := firstn (length s - length rest) s.

  (** The pairs of a successful match and the remaining input; no match; or out of fuel (the outer
      [None]). Rules below an atomic rule give no pairs. *)
  Fixpoint run (fuel : nat) (atomic : bool) (e : pexp) (s : str) : option (option (list pair * str)) :=
    match fuel with
    | O => None
    | S f =>
        match e with
        | PStr x => Some (match strip_prefix x s with Some s' => Some ([], s') | None => None end)
        | PRange lo hi =>
            Some (match decode1 s with
                  | Some (c, s') => if ((lo <=? c) && (c <=? hi))%N then Some ([], s') else None
                  | None => None
                  end)
        | PCall r =>
            let (k, body) := g_rule g r in
            let atomic' := match k with Atomic => true | _ => atomic end in
            match run f atomic' body s with
            | Some (Some (ps, s')) =>
                Some (Some (if atomic then []
                            else match k with
                                 | Silent => ps
                                 | _ => [Pair r (taken s s') ps]
                                 end, s'))
            | other => other
            end
        | PSeq a b =>
            match run f atomic a s with
            | Some (Some (ps, s1)) =>
                match run f atomic b (skip atomic s1) with
                | Some (Some (qs, s2)) => Some (Some (ps ++ qs, s2))
                | other => other
                end
            | other => other
            end
        | PAlt a b =>
            match run f atomic a s with
            | Some None => run f atomic b s
            | other => other
            end
        | POpt a =>
            match run f atomic a s with
            | Some None => Some (Some ([], s))
            | other => other
            end
        | PStar a =>
            match run f atomic a s with
            | Some (Some (ps, s1)) =>
                match run f atomic (PMore a) s1 with
                | Some (Some (qs, s2)) => Some (Some (ps ++ qs, s2))
                | other => other
                end
            | Some None => Some (Some ([], s))
            | None => None
            end
        | PMore a =>
            match run f atomic a (skip atomic s) with
            | Some (Some (ps, s1)) =>
                match run f atomic (PMore a) s1 with
                | Some (Some (qs, s2)) => Some (Some (ps ++ qs, s2))
                | other => other
                end
            | Some None => Some (Some ([], s))
            | None => None
            end
        | PNot a =>
            match run f atomic a s with
            | Some None => Some (Some ([], s))
            | Some (Some _) => Some None
            | None => None
            end
        | PEnd => Some (match s with [] => Some ([], []) | _ => None end)
        end
    end.

  (** [Parser::parse(rule, input)]: [rule] matches at the start of the input. *)
  Definition parse_rule (fuel : nat) (r : R) (s : str) : option (option (list pair)) :=
    match run fuel false (PCall r) s with
    | Some (Some (ps, _)) => Some (Some ps)
    | Some None => Some None
    | None => None
    end.
End Peg.
Arguments pexp : clear implicits.
Arguments pair : clear implicits.
Arguments grammar : clear implicits.

(** Choices and sequences of several expressions. *)
Fixpoint PAlts {R} (l : list (pexp R)) : pexp R :=
  match l with
  | [] => PNot (PStr [])
  | [a] => a
  | a :: l' => PAlt a (PAlts l')
  end.
Fixpoint PSeqs {R} (l : list (pexp R)) : pexp R :=
  match l with
  | [] => PStr []
  | [a] => a
  | a :: l' => PSeq a (PSeqs l')
  end.

(** Characters classes that pest defines. *)
Definition ASCII_DIGIT {R} : pexp R := PRange 48 57.
Definition ASCII_NONZERO_DIGIT {R} : pexp R := PRange 49 57.
Definition ASCII_ALPHA {R} : pexp R := PAlt (PRange 97 122) (PRange 65 90).
Definition ASCII_HEX_DIGIT {R} : pexp R := PAlts [PRange 48 57; PRange 97 102; PRange 65 70].
Definition NEWLINE {R} : pexp R :=
  PAlts [PStr [ascii_of_N 10]; PStr [ascii_of_N 13; ascii_of_N 10]; PStr [ascii_of_N 13]].
