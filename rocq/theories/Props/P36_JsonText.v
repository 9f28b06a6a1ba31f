(** C71: JSON text — models are written as text and read from text (atelier-json/src/{reader,writer}.rs on top of
    serde_json). *)
From Coq Require Import Permutation.
From Verif.Model Require Import JsonText.
From Verif.Model Require Cli Assembler.
From Verif.Spec Require Import IdentitySpec ModelSpec ReorderSpec IoSpec JsonSpec JsonTextSpec Witness.
From Verif.Proofs Require Import BaseFacts IdentityFacts IoFacts HashMapFacts ReorderFacts JsonFacts JsonTextFacts JsonTextValues JsonTextWrite JsonTextModel JsonTextDepth.
From Verif.Props Require Import P05_Json P22_Io.
From Verif.Props Require P20_Cli.

(** ** Reading: exactly the JSON documents are read, each as what it says *)
Theorem C71_reads_exactly :
  forall (f64_parse : str -> option Z) (t : str) (j : json),
    json_from_text f64_parse t = Some j <-> document_says f64_parse t j.
Proof. exact document_exact. Qed.
Print Assumptions C71_reads_exactly.

(** A text says at most one thing. *)
Theorem C71_one_meaning :
  forall (f64_parse : str -> option Z) (t : str) (j j' : json),
    document_says f64_parse t j -> document_says f64_parse t j' -> j = j'.
Proof. intros f t j j' A B. apply document_exact in A, B. congruence. Qed.
Print Assumptions C71_one_meaning.

(** The model of a text is the model of what the text says; a text that is no JSON is refused with the error that
    says so, and does not make the reader panic. *)
Theorem C71_model_of_text :
  forall (H : Hasher) (f64_parse : str -> option Z) (root : Assembler.node) (t : str),
    (forall j, document_says f64_parse t j -> read_model_from_string (json_model_reader f64_parse) t = Json.read_model j)
    /\ ((forall j, ~ document_says f64_parse t j) -> read_model_from_string (json_model_reader f64_parse) t = Err not_json)
    /\ (forall p, file_at root p t ->
          read_model_from_file root (json_model_reader f64_parse) p = read_model_from_string (json_model_reader f64_parse) t).
Proof.
  intros H f root t. split; [|split].
  - intros j S. apply document_exact in S. unfold read_model_from_string. cbn [json_model_reader rd_read]. unfold read_json_model. rewrite S. reflexivity.
  - intros N. unfold read_model_from_string. cbn [json_model_reader rd_read]. unfold read_json_model.
    destruct (json_from_text f t) as [j|] eqn:E; [|reflexivity]. apply document_exact in E. destruct (N j E).
  - intros p F. apply (proj1 (C53_read_from_file root (json_model_reader f) p)), F.
Qed.
Print Assumptions C71_model_of_text.

(** White space around a document does not matter. *)
Theorem C71_blanks_around :
  forall (f64_parse : str -> option Z) (w t w' : str) (j : json),
    blank w -> blank w' -> document_says f64_parse t j -> document_says f64_parse (w ++ t ++ w') j.
Proof.
  intros f w t w' j B B' (u & t' & u' & -> & V & V' & S). exists (w ++ u), t', (u' ++ w').
  split; [rewrite <- !app_assoc; reflexivity|]. split; [apply Forall_app; tauto|]. split; [apply Forall_app; tauto|exact S].
Qed.
Print Assumptions C71_blanks_around.

(** ** Writing: what is printed, on one line or on many, says what was printed, and is Unicode *)
Theorem C71_written_says :
  forall (f64_parse : str -> option Z) (f64_text : Z -> str) (pretty_print : bool) (j : json),
    printable f64_parse f64_text deepest j ->
    document_says f64_parse (json_text f64_text pretty_print j) j
    /\ is_text (json_text f64_text pretty_print j).
Proof. intros f g pp j P. split; [apply text_says, P|eapply json_text_text, P]. Qed.
Print Assumptions C71_written_says.

(** Different values have different texts. *)
Theorem C71_texts_distinct :
  forall (f64_parse : str -> option Z) (f64_text : Z -> str) (pp pp' : bool) (j j' : json),
    printable f64_parse f64_text deepest j -> printable f64_parse f64_text deepest j' ->
    json_text f64_text pp j = json_text f64_text pp' j' -> j = j'.
Proof.
  intros f g pp pp' j j' P P' E. apply (C71_one_meaning f (json_text g pp j)); [apply text_says, P|]. rewrite E. apply text_says, P'.
Qed.
Print Assumptions C71_texts_distinct.

(** ** Models: through text and back (up to what the JSON AST does not keep, C26) *)
Theorem C71_model_round_trip :
  forall (H : Hasher) (f64_parse : str -> option Z) (f64_text : Z -> str) (pretty_print : bool) (root : Assembler.node) (m : model),
    model_writable m -> model_printable f64_parse f64_text m ->
    exists text m',
      write_model_to_string root (json_writer f64_text pretty_print) m = Ok text
      /\ read_model_from_string (json_model_reader f64_parse) text = Ok m'
      /\ reorder_model (json_image m) m' /\ model_eqb (json_image m) m' = true
      /\ (json_faithful m -> model_eqb m m' = true).
Proof.
  intros H f g pp root m W P. destruct (model_round m W) as (j & m' & E & R & O).
  assert (Q := model_written f g m j W P E). exists (json_text g pp j), m'. split; [|split; [|split; [exact O|]]].
  - apply (proj1 (C53_write_to_string root (json_writer g pp) m)). unfold json_writer. rewrite E. cbn [ending pieces concat].
    split; [reflexivity|]. split; [symmetry; apply app_nil_r|]. eapply json_text_text, Q.
  - rewrite (proj1 (C71_model_of_text H f root _) j); [exact R|]. apply text_says, Q.
  - assert (Y : model_eqb (json_image m) m' = true) by (apply reorder_model_eqb; [apply json_image_clean, W|exact O]).
    split; [exact Y|]. intros F. rewrite (json_faithful_image m F) in Y. exact Y.
Qed.
Print Assumptions C71_model_round_trip.

(** The same for the command line tool: what [convert] prints, put in a file, makes the model again (C51 without
    its hypothesis on the text). *)
Theorem C71_convert :
  forall (H : Hasher) f64_parse f64_text smithy_reader render f64_str debug_str camel mixed snake safe_label
         yellow bright_red bold underline dimmed has_source path_order ns_order root files search namespace m,
    Cli.assemble_model (read_json_model f64_parse) smithy_reader path_order root files search = Ok m ->
    model_writable m -> model_printable f64_parse f64_text m ->
    exists text m',
      Cli.main (read_json_model f64_parse) smithy_reader (json_text f64_text true) render f64_str debug_str camel mixed snake safe_label
        yellow bright_red bold underline dimmed has_source path_order ns_order root
        (Cli.Convert files None Cli.FJson namespace search) = Cli.Outcome text Cli.Exit0
      /\ reorder_model (json_image m) m'
      /\ forall root' q e, Assembler.node_at root' q = Some (Assembler.NFile text) -> Assembler.path_extension q = Some e ->
           lower e = lit "json" ->
           Assembler.assemble (Assembler.reg_default (read_json_model f64_parse) smithy_reader) root' [q] = Ok m'.
Proof.
  intros H f g smithy_reader render f64_str debug_str camel mixed snake safe_label yellow bright_red bold underline dimmed has_source
    path_order ns_order root files search namespace m A W P.
  apply P20_Cli.C51_convert_json; [exact A|exact W|]. intros j E.
  unfold read_json_model. rewrite (proj2 (document_exact f _ j)); [reflexivity|]. apply text_says. eapply model_written; eassumption.
Qed.
Print Assumptions C71_convert.

(** ** The limit: a value is read back exactly if it is nested at most 127 deep, and refused otherwise *)
Theorem C71_depth_limit :
  forall (f64_parse : str -> option Z) (f64_text : Z -> str) (pretty_print : bool) (n : nat) (j : json),
    printable f64_parse f64_text n j ->
    (depth j <= 127 -> json_from_text f64_parse (json_text f64_text pretty_print j) = Some j)
    /\ (127 < depth j -> forall j', ~ document_says f64_parse (json_text f64_text pretty_print j) j').
Proof.
  intros f g pp n j P. split; intros D.
  - apply document_exact, text_says. eapply printable_deep; eassumption.
  - intros j' S. apply document_exact in S. rewrite (text_too_deep f g n pp j P D) in S. discriminate S.
Qed.
Print Assumptions C71_depth_limit.

(** So not every model that is written is read back, even without shapes: metadata of any depth. *)
Definition every_model_read_back : Prop :=
  forall (H : Hasher) (f64_parse : str -> option Z) (f64_text : Z -> str) (pretty_print : bool) (m : model),
    model_writable m -> m_shapes m = [] ->
    Forall (fun e => is_text (fst e) /\ exists n, value_printable f64_parse f64_text n (snd e)) (m_metadata m) ->
    exists text m', write_model_to_string Assembler.NOther (json_writer f64_text pretty_print) m = Ok text
                    /\ read_model_from_string (json_model_reader f64_parse) text = Ok m'.
Fixpoint nested (n : nat) : value := match n with 0 => VNone | S n => VArray [nested n] end.
Lemma nested_finite n : finite_value (nested n).
Proof. induction n; constructor. repeat constructor. exact IHn. Qed.
Lemma nested_ok n : value_ok (nested n).
Proof. induction n; constructor. repeat constructor. exact IHn. Qed.
Lemma nested_printable f g n : value_printable f g n (nested n).
Proof. induction n; constructor. repeat constructor. exact IHn. Qed.
Definition burrow : model := Model V10 [(lit "burrow", nested 126)] [].
Theorem C71_every_model_refuted : ~ every_model_read_back.
Proof.
  intros C. destruct (C byte_hasher (fun _ => None) (fun _ => []) false burrow) as (text & m' & E & R).
  - split; [|split].
    + split; [split; [|split]|split].
      * intros k s [].
      * constructor.
      * constructor; [intros ? ? []|constructor].
      * constructor.
      * constructor; [apply nested_ok|constructor].
    + constructor; [apply nested_finite|constructor].
    + constructor.
  - reflexivity.
  - constructor; [split; [apply ascii_text; repeat constructor|eexists; apply nested_printable]|constructor].
  - vm_compute in E. injection E as <-. vm_compute in R. discriminate R.
Qed.
Print Assumptions C71_every_model_refuted.

(** ** Examples *)
(** No floats are needed here, except -0. *)
Definition floats (t : str) : option Z := if str_eqb t (lit "-0") || str_eqb t (lit "-0.0") then Some 0x8000000000000000%Z else None.
Definition float_texts (b : Z) : str := lit "-0.0".
(** Text in the double-quoted strings of which ' stands for a double quote. *)
Definition q (s : string) : str := map (fun c => if Ascii.eqb c "'" then ascii_of_N 34 else c) (lit s).
Example C71_ex :
  (* a name given twice, blanks, an escaped solidus, a surrogate pair, a number of 64 bits, -0 *)
  document_says floats (q " { 'b' : [ ] , 'a':1,'b': [null,'\u00E9\/\ud83D\uDE00' , -0,18446744073709551615 ]} ")
    (JObject [(lit "a", JInt 1);
              (lit "b", JArray [JNull; JString (bytes [195; 169; 47; 240; 159; 152; 128]%N); JFloat 0x8000000000000000; JInt 18446744073709551615])])
  (* not JSON: nothing, a comma too much, a zero too much, a lone surrogate, a control character, something after it *)
  /\ Forall (fun t => forall j, ~ document_says floats t j)
       [[]; q "[1,]"; q "[01]"; q "'\ud83d'"; [ch 34; ch 10; ch 34]; q "{} {}"; q "{'a':1,}"; q "nul"; q "[.5]"; q "{a:1}"]
  (* both ways of printing *)
  /\ json_text float_texts false (JObject [(lit "a", JArray [JBool true; JFloat 0x8000000000000000]); (lit "b", JString (bytes [10; 34; 31]%N))])
     = q "{'a':[true,-0.0],'b':'\n\'\u001f'}"
  /\ json_text float_texts true (JObject [(lit "a", JArray [JBool true]); (lit "b", JObject [])])
     = q "{" ++ [ch 10] ++ q "  'a': [" ++ [ch 10] ++ q "    true" ++ [ch 10] ++ q "  ]," ++ [ch 10] ++ q "  'b': {}" ++ [ch 10] ++ q "}".
Proof.
  split; [|split; [|split]].
  - apply document_exact. vm_compute. reflexivity.
  - repeat (apply Forall_cons; [intros j S; apply document_exact in S; vm_compute in S; discriminate S|]). apply Forall_nil.
  - vm_compute. reflexivity.
  - vm_compute. reflexivity.
Qed.

(** The hypotheses of the round trip are met by the message-of-the-day model. *)
Ltac solve_printable :=
  repeat (cbn [fst snd ts_traits ts_body ms_traits body_printable sv_version];
  lazymatch goal with
  | |- Forall _ [] => apply Forall_nil
  | |- Forall _ (_ :: _) => apply Forall_cons
  | |- _ /\ _ => split
  | |- True => exact I
  | |- is_text _ => apply ascii_text; repeat constructor
  | |- traits_printable _ _ _ _ => unfold traits_printable
  | |- value_printable _ _ _ (VObject _) => apply vp_object
  | |- value_printable _ _ _ (VArray _) => apply vp_array
  | |- value_printable _ _ _ (VNumber (NInteger _)) => apply vp_int; vm_compute; split; discriminate
  | |- value_printable _ _ _ (VBoolean _) => apply vp_bool
  | |- value_printable _ _ _ (VString _) => apply vp_string
  | |- value_printable _ _ _ VNone => apply vp_none
  end).
Example C71_model_ex : model_printable floats float_texts motd_more /\ model_printable floats float_texts motd
  /\ exists text m', write_model_to_string Assembler.NOther (json_writer float_texts true) motd_more = Ok text
       /\ read_model_from_string (json_model_reader (H := byte_hasher) floats) text = Ok m' /\ model_eqb (H := byte_hasher) motd_more m' = true.
Proof.
  assert (A : model_printable floats float_texts motd_more). { split; cbn; autounfold with witness; change deepest with 127; cbn [Nat.sub]; solve_printable. }
  split; [exact A|]. split.
  - split; cbn; autounfold with witness; change deepest with 127; cbn [Nat.sub]; solve_printable.
  - destruct (C71_model_round_trip byte_hasher floats float_texts true Assembler.NOther motd_more (proj1 C26_ex) A) as (text & m' & E & R & _ & _ & F).
    exists text, m'. split; [exact E|]. split; [exact R|]. apply F, C26_ex.
Qed.
