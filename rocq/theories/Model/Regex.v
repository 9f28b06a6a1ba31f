(** Regular expressions: the fragment of the [regex] crate used by atelier-core/src/model/identity.rs.
    The matcher is by Brzozowski derivatives; [Proofs/RegexFacts.v] proves it equal to the usual
    denotational semantics given there.  [is_match] of an expression anchored with [^...$] is
    [rmatch].  The crate's [$] does not match before a trailing newline (multi-line mode is off), so
    anchoring means "the whole string". *)
From Verif.Model Require Export Base.

Inductive regex :=
| RNone                                  (* matches nothing; only produced by derivatives *)
| REps
| RClass (p : ascii -> bool)             (* a character class, or one literal character *)
| RCat (a b : regex)
| RAlt (a b : regex)
| RStar (a : regex).

Definition rchar (c : ascii) : regex := RClass (Ascii.eqb c).
Definition ropt (r : regex) : regex := RAlt r REps.    (* greedy [r?] *)

Fixpoint nullable (r : regex) : bool :=
  match r with
  | RNone => false
  | REps => true
  | RClass _ => false
  | RCat a b => nullable a && nullable b
  | RAlt a b => nullable a || nullable b
  | RStar _ => true
  end.

Fixpoint deriv (c : ascii) (r : regex) : regex :=
  match r with
  | RNone => RNone
  | REps => RNone
  | RClass p => if p c then REps else RNone
  | RCat a b =>
      if nullable a then RAlt (RCat (deriv c a) b) (deriv c b) else RCat (deriv c a) b
  | RAlt a b => RAlt (deriv c a) (deriv c b)
  | RStar a => RCat (deriv c a) (RStar a)
  end.

Fixpoint rmatch (r : regex) (s : str) : bool :=
  match s with
  | [] => nullable r
  | c :: s' => rmatch (deriv c r) s'
  end.

(** Submatch extraction for a concatenation [(a)b]: the longest prefix matching [a] whose
    remainder matches [b] (the crate's greedy operators prefer longer prefixes). *)
Fixpoint split_match_from (a b : regex) (pre rest : str) : option (str * str) :=
  let here :=
    if rmatch a pre && rmatch b rest then Some (pre, rest) else None in
  match rest with
  | [] => here
  | c :: rest' =>
      match split_match_from a b (pre ++ [c]) rest' with
      | Some r => Some r
      | None => here
      end
  end.
Definition split_match (a b : regex) (s : str) : option (str * str) := split_match_from a b [] s.
