(** C73: a model kept in several files is the model that is assembled from them. *)
From Coq Require Import Sorting.Permutation.
From Verif.Model Require Import Json JsonText SmithyParse SmithyWrite Assembler.
From Verif.Spec Require Import ProjectSpec ReorderSpec Witness.
From Verif.Proofs Require Import BaseFacts HashMapFacts JsonFacts JsonTextModel JsonTextValues JsonTextWrite ReorderFacts ReorderEquiv AssemblerFacts ReaderFacts ProjectFacts.
From Verif.Props Require P09_Assembler P12_Smithy P20_Cli P37_Readers.

Section Files.
  Variable json_floats : str -> option Z.
  Variable idl_floats : str -> Z.
  Variables (json_float_text idl_float_text : Z -> str) (debug_str : str -> str).
  Context {H : Hasher}.
  Notation registry := (reg_default (read_json_model json_floats) (parse_model idl_floats)).
  Notation holds := (file_holds json_floats idl_floats json_float_text idl_float_text debug_str).

  Lemma same_entries {K V} (R : V -> V -> Prop) (a b : list (K * V)) : (forall v, R v v) -> Permutation a b -> reordered R a b.
  Proof.
    intros Rf P. exists b. split; [exact P|]. clear P. induction b as [|[k v] b IH]; constructor; [split; [reflexivity|apply Rf]|exact IH].
  Qed.
  Lemma held_is_read root q w : holds root q w -> exists x, reads registry root q x /\ reorder_model w x.
  Proof.
    intros [e pp j X E J N W P F|e ns X E N W K].
    - destruct (model_round w W) as (j' & x & J' & R & O). rewrite J in J'. injection J' as <-. rewrite (json_faithful_image w F) in O.
      exists x. split; [|exact O]. exists (json_text json_float_text pp j), e, (ft_new "JSON AST" (read_json_model json_floats)).
      split; [exact N|]. split; [exact X|]. split; [unfold reg_get; unfold same_name in E; rewrite E; reflexivity|].
      cbn [ft_reader ft_new]. unfold read_json_model. rewrite (proj2 (document_exact json_floats _ j)); [exact R|].
      apply text_says. eapply model_written; eassumption.
    - destruct (P12_Smithy.C40_identity idl_float_text debug_str idl_floats ns w W K) as (x & R & V & M & S).
      exists x. split.
      + exists (write_smithy idl_float_text debug_str ns w), e, (ft_new "Smithy IDL" (parse_model idl_floats)).
        split; [exact N|]. split; [exact X|]. split; [unfold reg_get; unfold same_name in E; rewrite E; reflexivity|]. exact R.
      + split; [symmetry; exact V|]. rewrite M. split; apply same_entries; [constructor|reflexivity| |symmetry; exact S].
        intros s. destruct (reorder_model_refl (Model V10 [] [(ts_id s, s)])) as (_ & _ & (l & Q & F)). apply Permutation_length_1_inv in Q as ->. inversion F; subst.
        match goal with h : _ /\ _ |- _ => exact (proj2 h) end.
  Qed.
  Lemma held_are_read root qs ws : Forall2 (holds root) qs ws ->
    exists ms, Forall2 (fun q x => reads registry root q x) qs ms /\ Forall2 reorder_model ws ms.
  Proof.
    induction 1 as [|q w qs ws F L (ms & R & O)]; [exists []; split; constructor|]. destruct (held_is_read root q w F) as (x & Rx & Ox).
    exists (x :: ms). split; constructor; assumption.
  Qed.
  Lemma reads_once root q x y : reads registry root q x -> reads registry root q y -> x = y.
  Proof.
    intros (c & e & ft & N & X & G & R) (c' & e' & ft' & N' & X' & G' & R'). apply path_extension_spec in X, X'. congruence.
  Qed.
  Lemma all_read_once root qs xs ys : Forall2 (fun q x => reads registry root q x) qs xs -> Forall2 (fun q x => reads registry root q x) qs ys -> xs = ys.
  Proof.
    intros F. revert ys. induction F as [|q x qs xs R F IH]; intros ys G; inversion G; subst; [reflexivity|]. f_equal; [eapply reads_once; eassumption|apply IH; assumption].
  Qed.
  Lemma parts_perm m ws ws' : Permutation ws ws' -> parts_of m ws -> parts_of m ws'.
  Proof.
    intros P (A & B & C & D & E). assert (I : forall w, In w ws' -> In w ws) by (intros w; apply Permutation_in; symmetry; exact P).
    split; [intros w J; apply A, I, J|]. split; [intros w k v J; apply B, I, J|]. split; [|split; [intros w k s J; apply D, I, J|]].
    - intros k v J. destruct (C k v J) as (w & rest & Q & X). exists w, rest. split; [rewrite <- P; exact Q|exact X].
    - intros k s J. destruct (E k s J) as (w & rest & Q & X). exists w, rest. split; [rewrite <- P; exact Q|exact X].
  Qed.

  (** [files]: every file below the paths that has the extension of a representation, once. *)
  Theorem C73_parts :
    forall (root : node) (paths files : list path) (m : model) (ws : list model),
      node_ok root -> separate paths -> NoDup files ->
      (forall q, In q files <-> (exists p, In p paths /\ below p q) /\ model_file registry root q) ->
      Forall2 (holds root) files ws -> parts_of m ws -> model_whole m -> ~ model_nan m ->
      exists m', assemble registry root paths = Ok m' /\ model_eqb m m' = true.
  Proof.
    intros root paths files m ws N S D F Hs P W Nan.
    destruct (P09_Assembler.C38_files_read registry root paths N) as [Fi Di].
    assert (Q : Permutation files (expand_file_paths registry root paths)).
    { apply NoDup_Permutation; [exact D|apply Di, S|]. intros q. rewrite F, Fi. reflexivity. }
    destruct (Forall2_perm _ _ _ _ Q Hs) as (ws' & Hs' & Pw). destruct (held_are_read root _ _ Hs') as (ms & R & O).
    assert (P' := parts_perm m ws ws' Pw P). destruct (P37_Readers.C72_assembled H json_floats idl_floats root paths N) as [Iff Res].
    assert (Wm : Forall model_whole ms).
    { clear - R. induction R as [|q x qs ms (c & e & ft & _ & _ & G & E) R IH]; constructor; [|exact IH]. exact (P37_Readers.readers_whole json_floats idl_floats e ft c x G E). }
    destruct (proj2 Iff) as [m' E]; [exists ms; split; [exact R|eapply parts_compatible; eassumption]|]. exists m'. split; [exact E|].
    destruct (Res m' E) as (Wm' & ms' & R' & C). rewrite (all_read_once root _ _ _ R R') in *.
    eapply parts_combined; try eassumption. destruct (m_version m'), (m_version m). reflexivity.
  Qed.
  (** The same for the files given to the tool: their order does not matter. *)
  Theorem C73_tool :
    forall (path_order : list path -> list path) (root : node) (inputs files : list path) (m : model) (ws : list model),
      (forall l, Permutation (path_order l) l) -> node_ok root -> separate inputs -> NoDup files ->
      (forall q, In q files <-> (exists p, In p inputs /\ below p q) /\ model_file registry root q) ->
      Forall2 (holds root) files ws -> parts_of m ws -> model_whole m -> ~ model_nan m ->
      exists m', Cli.assemble_model (read_json_model json_floats) (parse_model idl_floats) path_order root inputs None = Ok m'
                 /\ model_eqb m m' = true.
  Proof.
    intros order root inputs files m ws Po N [Dn Sn] D F Hs P W Nan. unfold Cli.assemble_model.
    set (ps := order (Cli.pushed_paths inputs None)).
    assert (Q : Permutation ps inputs).
    { unfold ps. rewrite Po. unfold Cli.pushed_paths. destruct (push_all inputs []) as [A B]. apply NoDup_Permutation; [apply A; constructor|exact Dn|].
      intros p. rewrite B. cbn. tauto. }
    apply (C73_parts root ps files m ws); try assumption.
    - split; [eapply Permutation_NoDup; [symmetry; exact Q|exact Dn]|]. intros p q Ip Iq. apply Sn; eapply Permutation_in; eassumption.
    - intros q. rewrite F. split; intros [(p & I & B) M]; (split; [|exact M]); exists p; (split; [|exact B]); eapply Permutation_in; try exact I; [symmetry|]; exact Q.
  Qed.
End Files.
Print Assumptions C73_parts.
Print Assumptions C73_tool.

(** ** A project: a JSON file that holds the metadata and a shape, and mentions another one; an IDL file with the rest;
    and a file that is none of the two. *)
From Verif.Spec Require Import SmithySpec.
From Verif.Props Require Import P12_Smithy.
From Verif.Props Require P05_Json P36_JsonText.
Definition dates : shape := Shape (ex_id "Dates") [(api_id "documentation", Some (VString "All of them"))] (KList (MS "member" [] (ex_id "Date"))).
Definition pair_shape : shape :=
  Shape (ex_id "Pair") [] (KUnion [(lit "left", MS "left" [(api_id "title", Some (VString "Left"))] (api_id "Integer")); (lit "right", MS "right" [] (ex_id "Dates"))]).
Definition dates_mentioned : shape := Shape (ex_id "Dates") [] KUnresolved.
#[local] Hint Unfold dates pair_shape dates_mentioned : witness.
Notation table := (map (fun s => (ts_id s, s))).
Definition whole_project : model := Model V10 [(lit "owner", VString "me")] (table [motd_date; dates; pair_shape]).
Definition json_part : model := Model V10 [(lit "owner", VString "me")] (table [dates_mentioned; motd_date]).
Definition idl_part : model := Model V10 [] (table [dates; pair_shape]).
Definition json_part_text : str :=
  match Json.model_to_json json_part with Ok j => json_text no_float true j | _ => [] end.
Definition project : node :=
  NDir [(lit "src", NDir [(lit "README", NFile (lit "...")); (lit "dates.SMITHY", NFile (write_smithy no_float quoted ex_ns idl_part));
                          (lit "date.json", NFile json_part_text)])].
Example C73_ex_json : file_holds (H := zero_hasher) (fun _ => None) zero_parse no_float no_float quoted project [lit "src"; lit "date.json"] json_part.
Proof.
  destruct (Json.model_to_json json_part) as [j| |] eqn:E; try (vm_compute in E; discriminate E).
  apply holds_json with (e := lit "json") (pretty_print := true) (j := j).
  - exists [lit "src"], (lit "date"). split; [reflexivity|]. split; [discriminate|]. vm_compute. intuition discriminate.
  - reflexivity.
  - exact E.
  - transitivity (Some (NFile json_part_text)); [reflexivity|]. unfold json_part_text. rewrite E. reflexivity.
  - split; [solve_model_ok json_part|]. split; cbn; autounfold with witness; P05_Json.solve_writable.
  - split; cbn; autounfold with witness; change deepest with 127; cbn [Nat.sub]; P36_JsonText.solve_printable.
  - unfold JsonSpec.json_faithful. cbn. repeat (apply Forall_cons || apply Forall_nil); cbn; (split; [|split; [intros; discriminate|]]); unfold JsonSpec.traits_valued;
      repeat (apply Forall_cons || apply Forall_nil); cbn; try discriminate.
Qed.
Lemma idl_part_kept : SmithySpec.model_writable no_float quoted zero_parse (H := zero_hasher) ex_ns idl_part /\ SmithySpec.all_kept ex_ns idl_part.
Proof.
  split.
  - unfold SmithySpec.model_writable. split; [exists [lit "example"; lit "motd"]; split; [discriminate|split; [repeat (apply Forall_cons; [solve_short|]); apply Forall_nil|reflexivity]]|].
    split; [exact I|]. split; [apply Forall_nil|].
    assert (W : SmithySpec.written ex_ns idl_part = map snd (m_shapes idl_part)) by (vm_compute; reflexivity). rewrite W.
    split; [cbn [idl_part m_shapes map snd]; solve_distinct|].
    split; [vm_compute; repeat (apply NoDup_cons; [intros X; cbn [In] in X; repeat destruct X as [X|X]; (discriminate X || contradiction)|]); apply NoDup_nil|].
    split; [cbn [idl_part m_shapes map snd]; repeat (apply Forall_cons; [intros E; first [discriminate E|solve_absolute]|]); apply Forall_nil|].
    split; [|cbn [idl_part m_shapes map snd]; repeat (apply Forall_cons; [intros E X; first [discriminate E|reflexivity]|]); apply Forall_nil].
    cbn [idl_part m_shapes map snd]. repeat (apply Forall_cons; [|]); try apply Forall_nil; intros E; clear E;
      (split; [eexists; split; [reflexivity|split; [solve_short|solve_not_named]]|]);
      (split; [autounfold with witness; cbn [dates pair_shape ts_traits]; solve_traits|]); autounfold with witness; cbn [dates pair_shape ts_body SmithySpec.body_writable].
    + solve_absolute.
    + split; [cbn [map snd]; solve_distinct|]. repeat (apply Forall_cons; [split; [solve_short|split; [cbn [snd ms_traits]; solve_traits|cbn [snd ms_target]; solve_name]]|]); apply Forall_nil.
  - split; [reflexivity|]. cbn [idl_part m_shapes map]. repeat (apply Forall_cons; [split; [reflexivity|split; [right; reflexivity|split]]|]); try apply Forall_nil;
      autounfold with witness; cbn [dates pair_shape snd ts_body ts_traits SmithySpec.body_kept]; unfold SmithySpec.traits_kept, SmithySpec.member_kept; repeat first [exact I|split|apply Forall_cons|apply Forall_nil|reflexivity|discriminate].
Qed.
Example C73_ex_idl : file_holds (H := zero_hasher) (fun _ => None) zero_parse no_float no_float quoted project [lit "src"; lit "dates.SMITHY"] idl_part.
Proof.
  apply holds_idl with (e := lit "SMITHY") (ns := ex_ns).
  - exists [lit "src"], (lit "dates"). split; [reflexivity|]. split; [discriminate|]. vm_compute. intuition discriminate.
  - reflexivity.
  - reflexivity.
  - apply idl_part_kept.
  - apply idl_part_kept.
Qed.
Example C73_ex_parts : @parts_of zero_hasher whole_project [json_part; idl_part].
Proof.
  split; [|split; [|split; [|split]]].
  - intros w [<-|[<-|[]]]; (split; [reflexivity|]); [solve_model_ok json_part|solve_model_ok idl_part].
  - intros w k v [<-|[<-|[]]]; [intros [[= <- <-]|[]]; left; reflexivity|intros []].
  - intros k v [[= <- <-]|[]]. exists json_part, [idl_part]. split; [reflexivity|]. split; [left; reflexivity|]. intros w' [<-|[]] [].
  - intros w k s [<-|[<-|[]]]; cbn [json_part idl_part m_shapes map In]; intros I.
    + destruct I as [[= <- <-]|[[= <- <-]|[]]]; [right; split; [split; reflexivity|vm_compute; discriminate]|left; left; reflexivity].
    + destruct I as [[= <- <-]|[[= <- <-]|[]]]; left; right; [left|right; left]; reflexivity.
  - intros k s. cbn [whole_project m_shapes map In]. intros [[= <- <-]|[[= <- <-]|[[= <- <-]|[]]]].
    + exists json_part, [idl_part]. split; [reflexivity|]. split; [right; left; reflexivity|]. intros w' s' [<-|[]] E. vm_compute in E. discriminate E.
    + exists idl_part, [json_part]. split; [apply perm_swap|]. split; [left; reflexivity|]. intros w' s' [<-|[]] E. vm_compute in E. injection E as <-.
      split; reflexivity.
    + exists idl_part, [json_part]. split; [apply perm_swap|]. split; [right; left; reflexivity|]. intros w' s' [<-|[]] E. vm_compute in E. discriminate E.
Qed.
Example C73_ex_whole : @model_whole zero_hasher whole_project /\ ~ model_nan whole_project.
Proof.
  split.
  - split; [solve_model_ok whole_project|]. cbn [whole_project m_shapes map]. autounfold with witness. unfold shape_whole.
    repeat (apply Forall_cons; [|]); try apply Forall_nil; cbn [snd]; (split; [solve_ok|split]); cbn [ts_body members_named body_members map snd ms_traits];
      repeat (apply Forall_cons; [|]); try apply Forall_nil; try exact I; cbv beta; cbn [ms_traits snd]; try solve [solve_ok].
  - intros [(k & v & [[= <- <-]|[]] & N)|(k & s & I & [(t & v & J & N)|(x & Jx & t & v & J & N)])]; [inversion N| |];
      cbn [whole_project m_shapes map In] in I; autounfold with witness in I; destruct I as [[= <- <-]|[[= <- <-]|[[= <- <-]|[]]]];
      cbn [ts_traits ts_body members_in map snd In] in *.
    all: repeat match goal with h : _ \/ _ |- _ => destruct h as [h|h] | h : False |- _ => destruct h end.
    all: try (subst x; cbn [ms_traits In] in J).
    all: repeat match goal with h : _ \/ _ |- _ => destruct h as [h|h] | h : False |- _ => destruct h end.
    all: try (injection J as <- <-; inversion N).
Qed.
Example C73_ex : exists m',
  @assemble zero_hasher (reg_default (@read_json_model (fun _ => None) zero_hasher) (@parse_model zero_parse zero_hasher)) project [[lit "src"]] = Ok m'
  /\ @model_eqb zero_hasher whole_project m' = true.
Proof.
  assert (N : node_ok project).
  { apply no_dir; [cbn; solve_distinct|]. apply Forall_cons; [|apply Forall_nil]. apply no_dir; [cbn [map snd]; solve_distinct|].
    cbn [snd]. repeat (apply Forall_cons; [apply no_file|]). apply Forall_nil. }
  apply (@C73_parts (fun _ => None) zero_parse no_float no_float quoted zero_hasher project [[lit "src"]]
           [[lit "src"; lit "dates.SMITHY"]; [lit "src"; lit "date.json"]] whole_project [idl_part; json_part]).
  - exact N.
  - split; [repeat constructor; intros []|]. intros p q [<-|[]] [<-|[]] _. reflexivity.
  - repeat constructor; [intros [X|[]]; discriminate X|intros []].
  - intros q. rewrite <- (proj1 (P09_Assembler.C38_files_read (reg_default (@read_json_model (fun _ => None) zero_hasher) (@parse_model zero_parse zero_hasher)) project [[lit "src"]] N)).
    reflexivity.
  - apply Forall2_cons; [apply C73_ex_idl|]. apply Forall2_cons; [apply C73_ex_json|apply Forall2_nil].
  - eapply parts_perm; [apply perm_swap|exact C73_ex_parts].
  - apply C73_ex_whole.
  - apply C73_ex_whole.
Qed.
