(** C53: reading models from and writing them to strings and files (atelier-core/src/io/mod.rs). *)
From Verif.Model Require Import Io Assembler.
From Verif.Spec Require Import IoSpec Witness.
From Verif.Proofs Require Import BaseFacts IoFacts.

(* ---------------------------------------------------------------- C53 *)
(** The string is all the pieces the writer puts out, in order, if the writer succeeds and they are text together;
    if the writer fails there is its error and no text; there is a panic only if it panics itself or what it puts
    out is not text. *)
Theorem C53_write_to_string :
  forall (root : node) (w : model_writer) (m : model),
    (forall t, write_model_to_string root w m = Ok t
               <-> ending (w m) = Ok tt /\ t = concat (pieces (w m)) /\ is_text t)
    /\ (forall e, write_model_to_string root w m = Err e <-> ending (w m) = Err e)
    /\ ((forall s, In s (pieces (w m)) -> is_text s) ->
        (write_model_to_string root w m = Panic <-> ending (w m) = Panic)).
Proof.
  intros root w m. unfold write_model_to_string. rewrite run_buffer. cbn [app].
  destruct (ending (w m)) as [[]|e| ] eqn:E; cbn [rbind].
  - destruct (from_utf8_spec (concat (pieces (w m)))) as [[T ->]|[T ->]].
    + split; [|split].
      * intros t. split; [intros [= <-]; auto|intros (_ & -> & _); reflexivity].
      * intros e. split; discriminate.
      * intros _. split; discriminate.
    + split; [|split].
      * intros t. split; [discriminate|]. intros (_ & -> & K). contradiction.
      * intros e. split; discriminate.
      * intros P. destruct T. apply is_text_concat, P.
  - split; [|split]; [intros t; split; [discriminate|intros (K & _); discriminate K]| |intros _; split; discriminate].
    intros e'. split; congruence.
  - split; [|split]; [intros t; split; [discriminate|intros (K & _); discriminate K]|intros e; split; discriminate|intros _; tauto].
Qed.
Print Assumptions C53_write_to_string.

(** Reading a file is reading its content; what is not a file cannot be read. *)
Theorem C53_read_from_file :
  forall (root : node) (r : model_reader) (p : path),
    (forall content, file_at root p content -> read_model_from_file root r p = read_model_from_string r content)
    /\ ((forall content, ~ file_at root p content) -> exists e, read_model_from_file root r p = Err e).
Proof.
  intros root r p. unfold file_at, read_model_from_file, read_model_from_string, file_open. split.
  - intros content E. rewrite E. reflexivity.
  - intros N. destruct (node_at root p) as [[content|es|]|]; cbn [rbind]; eauto. destruct (N content eq_refl).
Qed.
Print Assumptions C53_read_from_file.

(** Writing to a file changes no file, whatever happens, and succeeds only if there is a file and nothing to write. *)
Theorem C53_write_to_file :
  forall (root : node) (w : model_writer) (m : model) (p : path),
    fst (write_model_to_file root w m p) = root
    /\ (snd (write_model_to_file root w m p) = Ok tt
        <-> exists_at root p /\ ending (w m) = Ok tt /\ concat (pieces (w m)) = []).
Proof.
  intros root w m p. unfold write_model_to_file, file_open, exists_at.
  destruct (node_at root p) as [n|]; [|split; [reflexivity|split; [discriminate|intros (K & _); congruence]]].
  destruct (run_read_only root p (w m) []) as [[E ->]|[E [e ->]]]; cbn [fst snd]; (split; [reflexivity|]).
  - split; [intros K; split; [discriminate|auto]|intros (_ & K & _); exact K].
  - split; [discriminate|]. intros (_ & _ & K). contradiction.
Qed.
Print Assumptions C53_write_to_file.

(** So the claims one would like to make do not hold. *)
Definition C53_file_holds_the_text : Prop :=
  forall (root : node) (w : model_writer) (m : model) (p : path) (old t : str),
    file_at root p old -> write_model_to_string root w m = Ok t ->
    exists root', write_model_to_file root w m p = (root', Ok tt) /\ file_at root' p t.
Theorem C53_file_holds_the_text_refuted :
  ~ C53_file_holds_the_text
  /\ forall (root : node) (w : model_writer) (m : model) (p : path) (t : str),
       write_model_to_string root w m = Ok t -> t <> [] -> snd (write_model_to_file root w m p) <> Ok tt.
Proof.
  assert (Q : forall (root : node) (w : model_writer) (m : model) (p : path) (t : str),
       write_model_to_string root w m = Ok t -> t <> [] -> snd (write_model_to_file root w m p) <> Ok tt).
  { intros root w m p t E N K. apply (proj1 (C53_write_to_string root w m)) in E as (_ & -> & _).
    apply (proj2 (C53_write_to_file root w m p)) in K as (_ & _ & K). contradiction. }
  split; [|exact Q]. intros C.
  pose (root := NDir [(lit "a", NFile (lit "old"))]).
  pose (w := fun _ : model => WPiece (lit "new") io_error WDone).
  assert (S : write_model_to_string root w motd = Ok (lit "new")) by (vm_compute; reflexivity).
  destruct (C root w motd [lit "a"] (lit "old") (lit "new") eq_refl S) as (root' & E & _).
  apply (Q root w motd [lit "a"] (lit "new") S); [discriminate|]. rewrite E. reflexivity.
Qed.
Print Assumptions C53_file_holds_the_text_refuted.

(** A writer of two pieces, the second with a character of two bytes; one whose pieces are no text alone but text
    together, and one that is no text at all. *)
Example C53_ex :
  let e := bytes [195; 169]%N in
  let pieces_of l := fun _ : model => fold_right (fun t next => WPiece t io_error next) WDone l in
  let root := NDir [(lit "a", NFile (lit "old"))] in
  write_model_to_string root (pieces_of [lit "caf"; e]) motd = Ok (lit "caf" ++ e)
  /\ write_model_to_string root (pieces_of [bytes [195]%N; bytes [169]%N]) motd = Ok e
  /\ write_model_to_string root (pieces_of [bytes [169; 195]%N]) motd = Panic
  /\ is_text (lit "caf" ++ e) /\ ~ is_text (bytes [169; 195]%N)
  /\ write_model_to_file root (pieces_of [lit "caf"; e]) motd [lit "a"] = (root, Err io_error)
  /\ write_model_to_file root (pieces_of []) motd [lit "a"] = (root, Ok tt)
  /\ write_model_to_file root (pieces_of []) motd [lit "b"] = (root, Err io_error).
Proof.
  intros e pieces_of root. repeat match goal with |- _ /\ _ => split end; try (vm_compute; reflexivity).
  - exists [99; 97; 102; 233]%N. split; [|vm_compute; reflexivity]. intros c I. unfold scalar. cbn in I. intuition (subst; vm_compute; tauto).
  - destruct (from_utf8_spec (bytes [169; 195]%N)) as [[_ E]|[N _]]; [vm_compute in E; discriminate E|exact N].
Qed.
