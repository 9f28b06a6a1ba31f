(** Model of atelier-core/src/action/{mod,validate/mod,lint/mod,lint/terms}.rs and
    atelier-lib/src/actions.rs. *)
From Verif.Model Require Export SemModel.

(** [IssueLevel], action/mod.rs:102-110; derived [PartialOrd] compares by position. *)
Inductive level := Info | Warning | Error.
Definition level_rank (l : level) : nat := match l with Info => 0 | Warning => 1 | Error => 2 end.
Definition level_gt (a b : level) : bool := Nat.ltb (level_rank b) (level_rank a).

(** [ActionIssue], action/mod.rs:119-125. *)
Record issue := Issue { i_reporter : str; i_level : level; i_message : str; i_locus : option shape_id }.

(** [ActionIssue::{info_at, warning_at, error_at, error}], action/mod.rs:255-279. The assertion
    that the message is not empty (227, 239) never fails: every message below has a fixed part. *)
Definition info_at (rep msg : str) (id : shape_id) : issue := Issue rep Info msg (Some id).
Definition warning_at (rep msg : str) (id : shape_id) : issue := Issue rep Warning msg (Some id).
Definition error_at (rep msg : str) (id : shape_id) : issue := Issue rep Error msg (Some id).
Definition error_nowhere (rep msg : str) : issue := Issue rep Error msg None.

(** A [Box<dyn Validator>] or [Box<dyn Linter>] as the runners see it: the issues it holds, and what
    one call of [validate]/[check] leaves in its buffer and returns. *)
Record action := Action {
  a_issues : list issue;
  a_call : model -> list issue -> list issue * result unit }.

(** [run_validation_actions], validate/mod.rs:38-59, and [run_linter_actions], lint/mod.rs:91-111,
    which are the same loop.  [issues.append(new_issues)] moves the elements out of the action's
    buffer, so the buffer that [any] looks at afterwards is empty.  Returns the buffers of the
    actions afterwards and the result. *)
Definition any_error (l : list issue) : bool := existsb (fun i => level_gt (i_level i) Warning) l.
Fixpoint run_loop (issues : list issue) (acts : list action) (m : model) (fail_fast : bool)
  : list action * result (list issue) :=
  match acts with
  | [] => ([], Ok issues)
  | a :: acts' =>
      match a_call a m (a_issues a) with
      | (new_issues, Ok _) =>
          let issues := issues ++ new_issues in
          let new_issues := [] in
          if fail_fast && any_error new_issues
          then (Action new_issues (a_call a) :: acts', Ok issues)
          else let (rest, r) := run_loop issues acts' m fail_fast in
               (Action new_issues (a_call a) :: rest, r)
      | (new_issues, Err e) => (Action new_issues (a_call a) :: acts', Err e)
      | (new_issues, Panic) => (Action new_issues (a_call a) :: acts', Panic)
      end
  end.
Definition run_actions (acts : list action) (m : model) (fail_fast : bool) : list action * result (list issue) :=
  run_loop [] acts m fail_fast.

(** [PRELUDE_NAMESPACE], prelude.rs:63-67. *)
Definition prelude_namespace : str := lit "smithy.api".

Section WithHasher.
  Context `{Hasher}.

  (** ** [CorrectTypeReferences], validate/mod.rs:65-299 *)
  Definition ctr_label : str := lit "CorrectTypeReferences".

  (** [check_type_only], validate/mod.rs:213-242. *)
  Definition check_type_only (shape : shape_id) (member : str) (target_id : shape_id) (m : model) : list issue :=
    match model_shape m target_id with
    | Some t =>
        if is_service (ts_body t) || is_operation (ts_body t) || is_resource (ts_body t)
        then [error_at ctr_label (sid_display shape ++ lit " member " ++ member ++
                lit " must not refer to a service, operation, resource or member.") shape]
        else []
    | None =>
        if negb (str_eqb (sid_ns target_id) prelude_namespace)
        then [warning_at ctr_label (sid_display shape ++ lit " member " ++ member ++ lit "'s type (" ++
                sid_display target_id ++ lit ") cannot be resolved to a shape in this model.") shape]
        else []
    end.

  Definition unresolved_msg (member : str) (target : shape_id) : str :=
    member ++ lit "'s type (" ++ sid_display target ++ lit ") cannot be resolved to a shape in this model.".

  (** [check_operation_only], validate/mod.rs:244-270. *)
  Definition check_operation_only (shape target : shape_id) (m : model) (member : str) : list issue :=
    match model_shape m target with
    | Some t => if negb (is_operation (ts_body t))
                then [error_at ctr_label (member ++ lit " must be an operation.") shape] else []
    | None => if negb (str_eqb (sid_ns target) prelude_namespace)
              then [warning_at ctr_label (unresolved_msg member target) shape] else []
    end.

  (** [check_resource_only], validate/mod.rs:272-298. *)
  Definition check_resource_only (shape target : shape_id) (m : model) (member : str) : list issue :=
    match model_shape m target with
    | Some t => if negb (is_resource (ts_body t))
                then [error_at ctr_label (member ++ lit " must be a resource.") shape] else []
    | None => if negb (str_eqb (sid_ns target) prelude_namespace)
              then [warning_at ctr_label (unresolved_msg member target) shape] else []
    end.

  (** [if let Some(target) = ... { self.check_...(target) }]. *)
  Definition opt_check (o : option shape_id) (f : shape_id -> list issue) : list issue :=
    match o with Some t => f t | None => [] end.

  (** One round of the loop of [validate], validate/mod.rs:71-207. *)
  Definition ctr_shape (m : model) (s : shape) : list issue :=
    let id := ts_id s in
    match ts_body s with
    | KSimple _ =>
        if negb (has_traits (ts_traits s))
        then [info_at ctr_label (lit "The simple shape (" ++ sid_display id ++
                lit ") is simply a synonym, did you mean to add any constraint traits?") id]
        else []
    | KList ms | KSet ms => check_type_only id (ms_id ms) (ms_target ms) m
    | KMap k v => check_type_only id (ms_id k) (ms_target k) m ++ check_type_only id (ms_id v) (ms_target v) m
    | KStructure ms | KUnion ms =>
        flat_map (fun e => check_type_only id (ms_id (snd e)) (ms_target (snd e)) m) ms
    | KService sv =>
        flat_map (fun t => check_operation_only id t m (lit "Service operation")) (sv_operations sv)
        ++ flat_map (fun t => check_resource_only id t m (lit "Service resource")) (sv_resources sv)
    | KOperation o =>
        opt_check (op_input o) (fun t => check_type_only id (lit "input") t m)
        ++ opt_check (op_output o) (fun t => check_type_only id (lit "output") t m)
        ++ flat_map (fun t => check_type_only id (lit "errors") t m) (op_errors o)
    | KResource r =>
        flat_map (fun e => check_type_only id (fst e) (snd e) m) (rs_identifiers r)
        ++ opt_check (rs_create r) (fun t => check_operation_only id t m (lit "Resource operation 'create'"))
        ++ opt_check (rs_put r) (fun t => check_operation_only id t m (lit "Resource operation 'put'"))
        ++ opt_check (rs_read r) (fun t => check_operation_only id t m (lit "Resource operation 'read'"))
        ++ opt_check (rs_update r) (fun t => check_operation_only id t m (lit "Resource operation 'update'"))
        ++ opt_check (rs_delete r) (fun t => check_operation_only id t m (lit "Resource operation 'delete'"))
        ++ opt_check (rs_list r) (fun t => check_operation_only id t m (lit "Resource operation 'list'"))
        ++ flat_map (fun t => check_operation_only id t m (lit "Resource operation")) (rs_operations r)
        ++ flat_map (fun t => check_operation_only id t m (lit "Resource collection operation")) (rs_collection_operations r)
        ++ flat_map (fun t => check_resource_only id t m (lit "Resource resource")) (rs_resources r)
    | KUnresolved => []
    end.
  (** [CorrectTypeReferences::validate], validate/mod.rs:70-209, on the buffer [buf]. *)
  Definition ctr_validate (m : model) (buf : list issue) : list issue * result unit :=
    (buf ++ flat_map (ctr_shape m) (shapes m), Ok tt).

  (** ** [NoUnresolvedReferences::validate], validate/mod.rs:307-323 *)
  Definition nur_label : str := lit "NoUnresolvedReferences".
  Definition nur_message (id : shape_id) : str :=
    lit "The model has an unresolved reference to shape '" ++ sid_display id ++ lit "'".
  Definition nur_shape (s : shape) : list issue :=
    match ts_body s with KUnresolved => [error_nowhere nur_label (nur_message (ts_id s))] | _ => [] end.
  Definition nur_validate (m : model) (buf : list issue) : list issue * result unit :=
    (buf ++ flat_map nur_shape (shapes m), Ok tt).

  (** [standard_model_validation], atelier-lib/src/actions.rs:35-44. *)
  Definition standard_model_validation (m : model) (fail_fast : bool) : result (list issue) :=
    snd (run_actions [Action [] nur_validate; Action [] ctr_validate] m fail_fast).

  (** ** [NamingConventions], lint/mod.rs:117-198.  [camel]/[mixed] are heck's [to_camel_case] and
      [to_mixed_case] (a crate outside /repo), as parameters. *)
  Section Lint.
    Variables (camel mixed snake : str -> str).
    Definition nc_label : str := lit "NamingConventions".

    (** [check_shape_name], lint/mod.rs:149-166. *)
    Definition nc_shape_name (id : shape_id) (reference : bool) : list issue :=
      if negb (str_eqb (camel (sid_name id)) (sid_name id))
      then [info_at nc_label ((if reference then lit "References to" else lit "Defined") ++
              lit " shape names should conform to UpperCamelCase, i.e. " ++ camel (sid_name id)) id]
      else [].
    (** [check_trait_name], lint/mod.rs:167-179. *)
    Definition nc_trait_name (id : shape_id) : list issue :=
      if negb (str_eqb (mixed (sid_name id)) (sid_name id))
      then [info_at nc_label (lit "Trait names should conform to lowerCamelCase, i.e. " ++ mixed (sid_name id)) id]
      else [].
    (** [check_member_name], lint/mod.rs:180-192. *)
    Definition nc_member_name (n : str) (parent : shape_id) : list issue :=
      if negb (str_eqb (mixed n) n)
      then [info_at nc_label (lit "Member names should conform to lowerCamelCase, i.e. " ++ mixed n) parent]
      else [].
    (** [check_applied_trait_names], lint/mod.rs:193-197. *)
    Definition nc_applied (ts : traits) : list issue := flat_map nc_trait_name (hm_keys ts).

    (** One round of the loop of [check], lint/mod.rs:123-143. *)
    Definition trait_trait : shape_id := SID "smithy.api" "trait" None.
    Definition nc_shape (s : shape) : list issue :=
      (if has_trait trait_trait (ts_traits s) then nc_trait_name (ts_id s) else nc_shape_name (ts_id s) false)
      ++ nc_applied (ts_traits s)
      ++ match ts_body s with
         | KStructure ms | KUnion ms =>
             flat_map (fun e => nc_member_name (ms_id (snd e)) (ts_id s)
                                ++ nc_shape_name (ms_target (snd e)) true
                                ++ nc_applied (ms_traits (snd e))) ms
         | _ => []
         end.
    (** [NamingConventions::check], lint/mod.rs:122-145. *)
    Definition nc_check (m : model) (buf : list issue) : list issue * result unit :=
      (buf ++ flat_map nc_shape (shapes m), Ok tt).

    (** ** [UnwelcomeTerms], lint/mod.rs:202-268 *)
    Definition ut_label : str := lit "UnwelcomeTerms".
    (** [UNWELCOME] and [is_unwelcome_term], terms.rs:12-16, 79-81. *)
    Definition unwelcome : list str :=
      [lit "blacklist"; lit "kill"; lit "master"; lit "slave"; lit "whitelist"].
    Definition is_unwelcome_term (t : str) : bool := mem_str t unwelcome.
    (** [split_words], terms.rs:103-106; [snake] is heck's [to_snake_case]. *)
    Definition split_words (s : str) : list str := split_on underscore (snake s).

    (** The linter's state: the [HashSet] of checked names and the issues. *)
    Notation ut_state := (list (str * unit) * list issue)%type.
    Definition ut_message (word : str) : str :=
      lit "The term '" ++ word ++ lit "' is considered either insensitive, divisive, or otherwise unwelcome".
    (** [check_identifier], lint/mod.rs:245-267 (always called with a shape). *)
    Definition ut_identifier (in_shape : shape_id) (st : ut_state) (n : str) : ut_state :=
      let (checked, issues) := st in
      if negb (hm_contains ident_key_eqb n checked)
      then (hm_insert ident_key_eqb n tt checked,
            issues ++ map (fun w => warning_at ut_label (ut_message w) in_shape)
                          (filter is_unwelcome_term (split_words n)))
      else st.
    (** [check_shape_id], lint/mod.rs:234-242. *)
    Definition ut_shape_id (st : ut_state) (id : shape_id) : ut_state :=
      let st := fold_left (ut_identifier id) (ns_split (sid_ns id)) st in
      let st := ut_identifier id st (sid_name id) in
      match sid_member id with Some n => ut_identifier id st n | None => st end.
    (** One round of the loop of [check], lint/mod.rs:208-228. *)
    Definition ut_shape (st : ut_state) (s : shape) : ut_state :=
      let st := ut_shape_id st (ts_id s) in
      let st := fold_left ut_shape_id (hm_keys (ts_traits s)) st in
      match ts_body s with
      | KStructure ms | KUnion ms =>
          let st := ut_shape_id st (ts_id s) in
          fold_left (fun st e =>
                       let st := ut_identifier (ts_id s) st (ms_id (snd e)) in
                       let st := ut_shape_id st (ms_target (snd e)) in
                       fold_left ut_shape_id (hm_keys (ms_traits (snd e))) st) ms st
      | _ => st
      end.
    (** [UnwelcomeTerms::check], lint/mod.rs:207-230. *)
    Definition ut_check_state (m : model) (st : ut_state) : ut_state := fold_left ut_shape (shapes m) st.
    (** The same as seen by the runner, starting from the default (nothing checked yet). *)
    Definition ut_check (m : model) (buf : list issue) : list issue * result unit :=
      (snd (ut_check_state m ([], buf)), Ok tt).

    (** [standard_model_lint], atelier-lib/src/actions.rs:21-30. *)
    Definition standard_model_lint (m : model) (fail_fast : bool) : result (list issue) :=
      snd (run_actions [Action [] nc_check; Action [] ut_check] m fail_fast).
  End Lint.
End WithHasher.
