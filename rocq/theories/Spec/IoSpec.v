(** Text as Unicode, what a writer puts out when nothing stops it, and files. *)
From Verif.Model Require Import Io.
From Verif.Model Require Import Assembler.

(** ** Text: a sequence of Unicode scalar values in UTF-8 *)
Definition scalar (c : N) : Prop := (c < 55296 \/ 57344 <= c < 1114112)%N.
Definition bytes (l : list N) : str := map ascii_of_N l.
Definition encode (c : N) : str :=
  (if c <? 128 then bytes [c]
   else if c <? 2048 then bytes [192 + c / 64; 128 + c mod 64]
   else if c <? 65536 then bytes [224 + c / 4096; 128 + (c / 64) mod 64; 128 + c mod 64]
   else bytes [240 + c / 262144; 128 + (c / 4096) mod 64; 128 + (c / 64) mod 64; 128 + c mod 64])%N.
Definition is_text (s : str) : Prop := exists cs, (forall c, In c cs -> scalar c) /\ s = flat_map encode cs.

(** ** The pieces of a writer in a row, and how it ends *)
Fixpoint pieces (w : writing) : list str :=
  match w with WPiece t _ next => t :: pieces next | _ => [] end.
Fixpoint ending (w : writing) : result unit :=
  match w with WDone => Ok tt | WFail e => Err e | WPanic => Panic | WPiece _ _ next => ending next end.

(** ** Files *)
Definition exists_at (root : node) (p : path) : Prop := node_at root p <> None.
Definition file_at (root : node) (p : path) (content : str) : Prop := node_at root p = Some (NFile content).
