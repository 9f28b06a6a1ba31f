(** C37: the file type registry; C38: the assembler (atelier-assembler/src/lib.rs). *)
From Coq Require Import Sorting.Permutation.
From Verif.Model Require Import Assembler.
From Verif.Spec Require Import AssemblerSpec Witness.
From Verif.Proofs Require Import BaseFacts HashMapFacts ModelFacts MergeFacts RegistryFacts MultiMergeFacts AssemblerFacts.

(* ---------------------------------------------------------------- C37 *)
(** After any history, a lookup finds what the last operation about that extension registered. *)
Theorem C37_lookup_is_last_registration :
  forall (ops : list reg_op) (e : str) (ft : file_type),
    (reg_get (reg_run ops reg_empty) e = Some ft <-> registered_last ops ft e)
    /\ (reg_contains (reg_run ops reg_empty) e = true <-> exists ft, registered_last ops ft e)
    /\ snd (reg_remove (reg_run ops reg_empty) e) = reg_get (reg_run ops reg_empty) e.
Proof.
  intros ops e ft. split; [apply get_history|]. split; [|reflexivity]. unfold reg_contains.
  destruct (reg_get (reg_run ops reg_empty) e) as [f|] eqn:E.
  - split; [|reflexivity]. intros _. exists f. apply get_history, E.
  - split; [discriminate|]. intros [f F]. apply get_history in F. congruence.
Qed.
Print Assumptions C37_lookup_is_last_registration.

(** Each operation changes the lookups it is about, in any letter case, and no other. *)
Theorem C37_operations :
  forall (ops : list reg_op) (ft : file_type) (exts : list str) (e x : str),
    let r := reg_run ops reg_empty in
    (same_name e x -> reg_get (reg_register r ft e) x = Some ft)
    /\ (~ same_name e x -> reg_get (reg_register r ft e) x = reg_get r x)
    /\ ((exists e', In e' exts /\ same_name e' x) -> reg_get (reg_register_all r ft exts) x = Some ft)
    /\ (~ (exists e', In e' exts /\ same_name e' x) -> reg_get (reg_register_all r ft exts) x = reg_get r x)
    /\ (same_name e x -> reg_get (fst (reg_remove r e)) x = None)
    /\ (~ same_name e x -> reg_get (fst (reg_remove r e)) x = reg_get r x)
    /\ (same_name e x -> reg_get r e = reg_get r x).
Proof.
  intros ops ft exts e x r. assert (R : reg_ok r) by (apply reg_run_ok, reg_empty_ok).
  destruct (step_get r (RgRegister ft e) x R) as (A1 & _ & A3).
  destruct (step_get r (RgRegisterAll ft exts) x R) as (B1 & _ & B3).
  destruct (step_get r (RgRemove e) x R) as (_ & C2 & C3).
  split; [intros S; apply (A1 ft); cbn; auto|]. split; [intros N; apply A3; exact N|].
  split; [intros S; apply (B1 ft); cbn; auto|]. split; [intros N; apply B3; exact N|].
  split; [intros S; apply C2; cbn; auto|]. split; [intros N; apply C3; exact N|].
  intros S. unfold reg_get. unfold same_name in S. rewrite S. reflexivity.
Qed.
Print Assumptions C37_operations.

(** [extensions] lists each extension with a reader once, in lower case and in increasing order. *)
Theorem C37_extensions :
  forall (ops : list reg_op),
    increasing (reg_extensions (reg_run ops reg_empty))
    /\ forall e, In e (reg_extensions (reg_run ops reg_empty))
                 <-> lower e = e /\ exists ft, reg_get (reg_run ops reg_empty) e = Some ft.
Proof.
  intros ops. assert (R : reg_ok (reg_run ops reg_empty)) by (apply reg_run_ok, reg_empty_ok).
  split; [apply bt_sorted_increasing, R|].
  assert (L : forall ops e, In e (reg_extensions (reg_run ops reg_empty)) -> lower e = e).
  { clear. intros ops. induction ops as [|o ops IH] using rev_ind; [intros e []|].
    rewrite reg_run_app. assert (R : reg_ok (reg_run ops reg_empty)) by (apply reg_run_ok, reg_empty_ok).
    revert IH R. generalize (reg_run ops reg_empty). intros r IH [R1 R2].
    assert (I1 : forall k (ft : file_type) m, (forall e, In e (map fst m) -> lower e = e) -> forall e, In e (map fst (bt_insert (lower k) ft m)) -> lower e = e).
    { clear. intros k ft m H. induction m as [|[k' v'] m IHm]; cbn; intros e.
      - intros [<-|[]]. apply lower_idem.
      - destruct (str_cmp (lower k) k'); cbn.
        + intros I. apply H. cbn. exact I.
        + intros [<-|I]; [apply lower_idem|apply H; exact I].
        + intros [<-|I]; [apply H; now left|]. apply IHm; [intros; apply H; now right|exact I]. }
    destruct o as [ft k|ft ks|k]; unfold reg_extensions in *; cbn.
    - apply I1, IH.
    - clear R1. revert IH. generalize (by_extension r). induction ks as [|k ks IHk]; intros m IH; [exact IH|]. cbn. apply IHk. apply I1, IH.
    - intros e I. apply IH. apply in_map_iff in I as (x & <- & I). apply in_map, (bt_remove_incl _ _ _ I). }
  intros e. unfold reg_get. split.
  - intros I. split; [eapply L; eauto|]. assert (E := L _ _ I). rewrite E.
    unfold reg_extensions in I. apply bt_get_In in I; [|apply R]. destruct (bt_get e _) as [f|]; [eauto|congruence].
  - intros (E & ft & G). rewrite E in G. apply bt_get_In; [apply R|congruence].
Qed.
Print Assumptions C37_extensions.

(** MIME types are known from [register] only, and for ever. *)
Theorem C37_mime_types :
  forall (ops : list reg_op) (t : str) (ft : file_type),
    reg_get_by_mime_type (reg_run ops reg_empty) t = Some ft <-> mime_last ops ft t.
Proof. intros. apply mime_history. Qed.
Print Assumptions C37_mime_types.

(** So a removed (or replaced) file type stays reachable by its MIME type, and one registered for
    several extensions at once is not reachable by it. *)
Definition C37_remove_forgets : Prop :=
  forall ops e ft t, reg_get (reg_run ops reg_empty) e = Some ft -> ft_mime ft = Some t ->
    (forall e', reg_get (reg_run (ops ++ [RgRemove e]) reg_empty) e' = None) ->
    reg_get_by_mime_type (reg_run (ops ++ [RgRemove e]) reg_empty) t = None.
Definition C37_register_all_registers_mime : Prop :=
  forall ops es ft t, ft_mime ft = Some t -> es <> [] ->
    reg_get_by_mime_type (reg_run (ops ++ [RgRegisterAll ft es]) reg_empty) t = Some ft.
Definition a_type : file_type := ft_new_with_mime_type "Smithy" (fun _ => Panic) "text/x-smithy".
Theorem C37_mime_refuted : ~ C37_remove_forgets /\ ~ C37_register_all_registers_mime.
Proof.
  split.
  - intros C. specialize (C [RgRegister a_type "smithy"] (lit "smithy") a_type (lit "text/x-smithy") eq_refl eq_refl).
    discriminate C. intros e'. reflexivity.
  - intros C. specialize (C [] [lit "smithy"] a_type (lit "text/x-smithy") eq_refl). discriminate C. discriminate.
Qed.
Print Assumptions C37_mime_refuted.

Example C37_ex :
  let r := reg_run [RgRegister a_type "Smithy"; RgRegisterAll (ft_new "JSON" (fun _ => Panic)) [lit "json"; lit "AST"]; RgRemove "ast"] reg_empty in
  reg_get r "SMITHY" = Some a_type /\ reg_contains r "Ast" = false /\ reg_extensions r = [lit "json"; lit "smithy"].
Proof. repeat split. Qed.

(* ---------------------------------------------------------------- C38 *)
(** The files read are exactly those with a known extension that are, or are below, a pushed path;
    each once if no pushed path is below another. *)
Theorem C38_files_read :
  forall (r : registry) (root : node) (paths : list path),
    node_ok root ->
    (forall q, In q (expand_file_paths r root paths)
               <-> (exists p, In p paths /\ below p q) /\ model_file r root q)
    /\ (separate paths -> NoDup (expand_file_paths r root paths)).
Proof. intros r root paths W. split; [intros q; apply expand_In, W|apply expand_NoDup, W]. Qed.
Print Assumptions C38_files_read.

(** A path pushed several times counts once. *)
Theorem C38_pushed_paths :
  forall (ps : list path),
    NoDup (fold_left push ps []) /\ forall p, In p (fold_left push ps []) <-> In p ps.
Proof.
  intros ps. destruct (push_all ps []) as [A B]. split; [apply A; constructor|]. intros p. rewrite B. cbn. tauto.
Qed.
Print Assumptions C38_pushed_paths.

(** Assembling succeeds exactly when every file can be read and no two of them conflict, and the result
    combines them: each metadata key, shape and trait of each file, in the order in which they are read. *)
Lemma read_all_reads r root paths ms : node_ok root ->
  (Forall2 (fun p m => read_model r root p = Ok m) (expand_file_paths r root paths) ms
   <-> Forall2 (fun p m => reads r root p m) (expand_file_paths r root paths) ms).
Proof.
  intros N. assert (F : Forall (fun q => exists c, node_at root q = Some (NFile c)) (expand_file_paths r root paths)).
  { apply Forall_forall. intros q I. apply expand_In in I; [|exact N]. apply I. }
  revert ms. induction F as [|q l [c C] F IH]; intros ms; [split; intros X; inversion X; constructor|].
  split; intros X; inversion X; subst; constructor; try (apply IH; assumption); eapply read_model_spec; eauto.
Qed.
Theorem C38_assembled_model :
  forall (H : Hasher) (r : registry) (root : node) (paths : list path),
    readers_ok r -> node_ok root ->
    ((exists m, assemble r root paths = Ok m) <->
       exists ms, Forall2 (fun p m => reads r root p m) (expand_file_paths r root paths) ms
                  /\ ForallOrdPairs models_compatible ms)
    /\ (forall m, assemble r root paths = Ok m ->
          exists ms, Forall2 (fun p m => reads r root p m) (expand_file_paths r root paths) ms
                     /\ combined_model ms m /\ model_ok m).
Proof.
  intros H r root paths W N. destruct (assemble_spec r root paths W) as [Iff S]. setoid_rewrite <- (read_all_reads r root paths _ N).
  split; [exact Iff|]. intros m E. destruct (S m E) as (ms & R & _ & C & K). exists ms. auto.
Qed.
Print Assumptions C38_assembled_model.

(** Neither the order of the paths nor that of directory listings decides whether assembling succeeds;
    nor, unless two files give an array for the same key or trait, what the result is. *)
Theorem C38_order_independent :
  forall (H : Hasher) (r : registry) (root root' : node) (paths paths' : list path),
    readers_ok r -> node_ok root -> node_ok root' -> same_files root root' ->
    separate paths -> separate paths' -> (forall p, In p paths <-> In p paths') ->
    ((exists m, assemble r root paths = Ok m) <-> (exists m, assemble r root' paths' = Ok m))
    /\ (forall ms m m',
          Forall2 (fun p m => reads r root p m) (expand_file_paths r root paths) ms ->
          ForallOrdPairs no_array_clash ms ->
          assemble r root paths = Ok m -> assemble r root' paths' = Ok m' -> similar_model m m').
Proof.
  intros H r root root' paths paths' W N N' F S S' P.
  assert (Q := expand_same r root root' paths paths' N N' S S' F P).
  assert (F' : same_files root' root) by (intros p c; symmetry; apply F).
  assert (Fl : forall root paths, node_ok root -> forall q, In q (expand_file_paths r root paths) -> exists c, node_at root q = Some (NFile c)).
  { intros rt ps Wr q I. apply expand_In in I; [|exact Wr]. apply I. }
  destruct (assemble_spec r root paths W) as [Iff Sp]. destruct (assemble_spec r root' paths' W) as [Iff' Sp']. split.
  - rewrite Iff, Iff'. split; intros (ms & R & C).
    + destruct (read_all_same r root root' paths paths' ms F Q (Fl _ _ N) R) as (ms' & R' & Pm).
      exists ms'. split; [exact R'|]. eapply compatible_perm; [exact Pm|eapply read_all_ok; eauto|exact C].
    + symmetry in Q. destruct (read_all_same r root' root paths' paths ms F' Q (Fl _ _ N') R) as (ms' & R' & Pm).
      exists ms'. split; [exact R'|]. eapply compatible_perm; [exact Pm|eapply read_all_ok; eauto|exact C].
  - intros ms m m' R NA E E'. apply (read_all_reads r root paths _ N) in R. destruct (Sp m E) as (ms1 & R1 & C1 & K1 & Wm). destruct (Sp' m' E') as (ms2 & R2 & C2 & K2 & Wm').
    assert (U : forall a b, read_all r root paths a -> read_all r root paths b -> a = b).
    { intros a b A B. apply collect_ok in A, B. congruence. }
    assert (U' : forall a b, read_all r root' paths' a -> read_all r root' paths' b -> a = b).
    { intros a b A B. apply collect_ok in A, B. congruence. }
    rewrite (U ms1 ms R1 R) in *.
    destruct (read_all_same r root root' paths paths' ms F Q (Fl _ _ N) R) as (ms' & R' & Pm).
    rewrite (U' ms2 ms' R2 R') in *.
    eapply combined_similar; [exact Pm|eapply read_all_ok; eauto|exact C1|exact NA|exact K1|exact K2|exact Wm|exact Wm'].
Qed.
Print Assumptions C38_order_independent.

(** A registry with one reader that knows two texts. *)
Section Two.
  Variables a b : model.
  Definition two_reader (c : str) : result model :=
    match c with
    | [x] => if Ascii.eqb x "a" then Ok a else if Ascii.eqb x "b" then Ok b else Err (EForeign (lit "syntax"))
    | _ => Err (EForeign (lit "syntax"))
    end.
  Definition two_registry : registry := reg_register reg_empty (ft_new "two" two_reader) "two".
  Lemma two_readers_ok `{Hasher} : model_ok a -> model_ok b -> readers_ok two_registry.
  Proof.
    intros Wa Wb e ft c m G R. change two_registry with (reg_run [RgRegister (ft_new "two" two_reader) "two"] reg_empty) in G.
    apply get_history in G as (b0 & o & a0 & E & Rg & _). destruct b0 as [|? b0]; [|destruct b0; discriminate].
    injection E as <- _. destruct Rg as [<- _]. cbn in R. unfold two_reader in R.
    destruct c as [|x [|? ?]]; try discriminate. destruct (Ascii.eqb x "a"); [injection R as <-; exact Wa|].
    destruct (Ascii.eqb x "b"); [injection R as <-; exact Wb|discriminate].
  Qed.
End Two.
Definition two_files : node :=
  NDir [(lit "src", NDir [(lit "a.two", NFile "a"); (lit "b.TWO", NFile "b"); (lit "read.me", NFile "?"); (lit "two", NFile "?")]);
        (lit "c.two", NFile "b")].
Lemma two_files_ok : node_ok two_files.
Proof.
  apply no_dir; [solve_distinct|]. repeat (apply Forall_cons; [cbn [snd]|]); try apply Forall_nil; try apply no_file.
  apply no_dir; [solve_distinct|]. repeat (apply Forall_cons; [cbn [snd]|]); try apply Forall_nil; apply no_file.
Qed.
Definition arr1 : model := Model V10 [(lit "tags", VArray [VNumber (NInteger 1)])] [].
Definition arr2 : model := Model V10 [(lit "tags", VArray [VNumber (NInteger 2)])] [].

(** Arrays are concatenated in the order in which the files happen to be visited. *)
Definition C38_order_never_matters : Prop :=
  forall (H : Hasher) (r : registry) (root : node) (paths paths' : list path) (m m' : model),
    readers_ok r -> node_ok root -> separate paths -> separate paths' -> (forall p, In p paths <-> In p paths') ->
    assemble r root paths = Ok m -> assemble r root paths' = Ok m' -> similar_model m m'.
(** A file that is pushed together with its directory is merged twice, so its arrays are doubled. *)
Definition C38_files_are_read_once : Prop :=
  forall (H : Hasher) (r : registry) (root : node) (dir : path) (f : str) (m m' : model),
    readers_ok r -> node_ok root ->
    assemble r root [dir] = Ok m -> assemble r root [dir; dir ++ [f]] = Ok m' -> similar_model m m'.
Lemma separate_two (p q : path) : p <> q -> (forall d, q <> p ++ d) -> (forall d, p <> q ++ d) -> separate [p; q] /\ separate [q; p].
Proof.
  intros N A B. split; (split; [repeat constructor; cbn; intuition congruence|]);
    intros x y [<-|[<-|[]]] [<-|[<-|[]]] [d E]; try reflexivity; exfalso; first [exact (A _ E) | exact (B _ E)].
Qed.
Theorem C38_refuted :
  ~ C38_order_never_matters /\ ~ C38_files_are_read_once.
Proof.
  assert (W1 : @model_ok zero_hasher arr1) by solve_model_ok arr1.
  assert (W2 : @model_ok zero_hasher arr2) by solve_model_ok arr2.
  split.
  - intros C. assert (S : separate [[lit "src"; lit "a.two"]; [lit "c.two"]] /\ separate [[lit "c.two"]; [lit "src"; lit "a.two"]]).
    { apply separate_two; [discriminate| |]; intros d; cbn; discriminate. }
    destruct S as [S1 S2].
    specialize (C zero_hasher (two_registry arr1 arr2) two_files _ _
                  (Model V10 [(lit "tags", VArray [VNumber (NInteger 1); VNumber (NInteger 2)])] [])
                  (Model V10 [(lit "tags", VArray [VNumber (NInteger 2); VNumber (NInteger 1)])] [])
                  (two_readers_ok _ _ W1 W2) two_files_ok S1 S2).
    destruct C as (_ & C & _); [intros p; cbn; tauto|vm_compute; reflexivity|vm_compute; reflexivity|].
    specialize (C (lit "tags")). vm_compute in C. destruct C as [C|C]; [discriminate|].
    inversion C as [l r0 F| | | | | | ]; subst. inversion F as [|? ? ? ? X]; subst. inversion X.
  - intros C.
    specialize (C zero_hasher (two_registry arr1 (model_new V10)) two_files [lit "src"] (lit "a.two")
                  (Model V10 [(lit "tags", VArray [VNumber (NInteger 1)])] [])
                  (Model V10 [(lit "tags", VArray [VNumber (NInteger 1); VNumber (NInteger 1)])] [])
                  (two_readers_ok _ _ W1 model_default_ok) two_files_ok).
    destruct C as (_ & C & _); [vm_compute; reflexivity|vm_compute; reflexivity|].
    specialize (C (lit "tags")). vm_compute in C. destruct C as [C|C]; [discriminate|].
    inversion C as [l r0 F| | | | | | ]; subst. inversion F as [|? ? ? ? X F2]; subst. inversion F2.
Qed.
Print Assumptions C38_refuted.

(** A run of the assembler that satisfies all hypotheses above. *)
Example C38_ex :
  @readers_ok zero_hasher (two_registry motd motd2) /\ node_ok two_files
  /\ separate [[lit "src"]; [lit "nowhere"]]
  /\ expand_file_paths (two_registry motd motd2) two_files [[lit "src"]; [lit "nowhere"]]
     = [[lit "src"; lit "a.two"]; [lit "src"; lit "b.TWO"]]
  /\ exists m, @assemble zero_hasher (two_registry motd motd2) two_files [[lit "src"]; [lit "nowhere"]] = Ok m
       /\ length (m_shapes m) = 9 /\ @no_array_clash zero_hasher motd motd2.
Proof.
  split; [apply two_readers_ok; [solve_model_ok motd|solve_model_ok motd2]|]. split; [exact two_files_ok|].
  split; [apply separate_two; [discriminate| |]; intros d; cbn; discriminate|].
  split; [vm_compute; reflexivity|]. eexists. split; [vm_compute; reflexivity|]. split; [vm_compute; reflexivity|].
  split.
  - intros k x y Ex Ey [[l ->] _]. unfold metadata_value, motd in Ex. cbn [m_metadata hm_get] in Ex.
    destruct (str_eqb (lit "domain") k); [discriminate|]. destruct (str_eqb (lit "owners") k); discriminate.
  - intros id s1 s2 t x y E1 _ Ex _ [[l ->] _]. apply hm_get_Some_In in E1 as (k & I & _).
    apply hm_get_Some_In in Ex as (k' & I' & _).
    assert (Q : Forall (fun e : shape_id * shape => Forall (fun t : shape_id * option value => match snd t with Some (VArray _) => False | _ => True end) (ts_traits (snd e))) (m_shapes motd)).
    { repeat constructor. }
    rewrite Forall_forall in Q. specialize (Q _ I). rewrite Forall_forall in Q. exact (Q _ I').
Qed.
