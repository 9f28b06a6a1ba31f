(** Model of atelier-smithy/src/parser/selector.rs: from the pairs of the grammar to a selector.
    Every [unexpected!] and [expecting!] is an error; [unwrap] panics. *)
From Verif.Model Require Export SelectorGrammar Selector.

(** [i64::from_str]: an optional sign and at least one digit, within the range. *)
Fixpoint digits_val (s : str) (acc : Z) : option Z :=
  match s with
  | [] => Some acc
  | c :: s' => if is_digit c then digits_val s' (acc * 10 + (Z.of_N (ch_N c) - 48))%Z else None
  end.
Definition i64_min : Z := (-9223372036854775808)%Z.
Definition i64_max : Z := 9223372036854775807%Z.
Definition i64_from_str (s : str) : option Z :=
  let digits (t : str) : option Z := match t with [] => None | _ => digits_val t 0 end in
  let v := match s with
           | "-"%char :: t => match digits t with Some n => Some (- n)%Z | None => None end
           | "+"%char :: t => digits t
           | t => digits t
           end in
  match v with
  | Some n => if ((i64_min <=? n) && (n <=? i64_max))%Z then Some n else None
  | None => None
  end.

Definition unexpected {A} (fn : string) : result A := Err (EDeserialization (lit fn)).
(** [.next().unwrap()]: the first of the inner pairs and the others. *)
Definition next {A} (l : list A) : result (A * list A) := match l with x :: l' => Ok (x, l') | [] => Panic end.
Definition unwrap_result {A} (r : result A) : result A := match r with Ok a => Ok a | _ => Panic end.
Fixpoint map_result {A B} (f : A -> result B) (l : list A) : result (list B) :=
  match l with
  | [] => Ok []
  | x :: l' => y <- f x ;; ys <- map_result f l' ;; Ok (y :: ys)
  end.
Notation spair := (pair srule).

Section Parse.
  (** [f64::from_str] of the standard library, on the texts that the rule [number] accepts. *)
  Variable f64_parse : str -> Z.

  (** [parse_selector_shape_types], selector.rs:106-115. *)
  Definition parse_shape_types (p : spair) : result shape_type :=
    match p_inner p with
    | [] => Ok TyAny
    | i :: _ => match p_rule i with
                | S_identifier => shape_type_from_str (p_text i)
                | _ => unexpected "parse_selector_shape_types"
                end
    end.
  (** [parse_selector_value], selector.rs:214-247. The text loses its first and last byte. *)
  Definition parse_value (p : spair) : result sel_value :=
    x <- next (p_inner p) ;; let (i, _) := x in
    match p_rule i with
    | S_text => Ok (SvText (firstn (length (p_text i) - 2) (skipn 1 (p_text i))))
    | S_number =>
        if existsb (Ascii.eqb ".") (p_text i) then Ok (SvNumber (NFloat (f64_parse (p_text i))))
        else match i64_from_str (p_text i) with Some n => Ok (SvNumber (NInteger n)) | None => Panic end
    | S_root_shape_id =>
        y <- next (p_inner i) ;; let (j, _) := y in
        match p_rule j with
        | S_identifier => n <- unwrap_result (ident_from_str (p_text j)) ;; Ok (SvRoot n)
        | S_absolute_root_shape_id => id <- unwrap_result (sid_from_str (p_text j)) ;; Ok (SvAbsolute id)
        | _ => unexpected "parse_selector_value"
        end
    | _ => unexpected "parse_selector_value"
    end.
  (** [parse_selector_path_segment], selector.rs:202-212. *)
  Definition parse_path_segment (p : spair) : result path_segment :=
    x <- next (p_inner p) ;; let (i, _) := x in
    match p_rule i with
    | S_value => v <- parse_value i ;; Ok (PsValue v)
    | S_function_property =>
        y <- next (p_inner i) ;; let (j, _) := y in
        n <- unwrap_result (ident_from_str (p_text j)) ;; Ok (PsFunction n)
    | _ => unexpected "parse_selector_path_segment"
    end.
  (** [parse_selector_path], selector.rs:187-200. *)
  Fixpoint parse_path (l : list spair) : result (list path_segment) :=
    match l with
    | [] => Ok []
    | p :: l' =>
        match p_rule p with
        | S_path => segs <- map_result parse_path_segment (p_inner p) ;; more <- parse_path l' ;; Ok (segs ++ more)
        | _ => unexpected "parse_selector_path"
        end
    end.
  (** [parse_selector_key], selector.rs:176-185. *)
  Definition parse_key (p : spair) : result key :=
    x <- next (p_inner p) ;; let (i, more) := x in
    match p_rule i with
    | S_identifier =>
        n <- unwrap_result (ident_from_str (p_text i)) ;; path <- parse_path more ;; Ok (Key n path)
    | _ => unexpected "parse_selector_key"
    end.
  (** The loops over values and the case suffix, selector.rs:148-174 and 311-342: [f] reads the
      values that the rule [values] holds, each by the rule [value]. *)
  Fixpoint parse_values {A} (values value : srule -> bool) (f : spair -> result A) (l : list spair)
    : result (list A * bool) :=
    match l with
    | [] => Ok ([], false)
    | p :: l' =>
        if values (p_rule p) then
          vs <- map_result (fun q => if value (p_rule q) then f q else unexpected "values") (p_inner p) ;;
          rest <- parse_values values value f l' ;; Ok (vs ++ fst rest, snd rest)
        else match p_rule p with
             | S_case_suffix => rest <- parse_values values value f l' ;; Ok (fst rest, true)
             | _ => unexpected "values"
             end
    end.
  Definition parse_comparator (p : spair) : result comparator :=
    match p_rule p with
    | S_comparator => unwrap_result (comparator_from_str (p_text p))
    | _ => unexpected "comparator"
    end.
  (** [parse_selector_attr_comparison], selector.rs:138-174. *)
  Definition parse_attr_comparison (p : spair) : result comparison_ :=
    x <- next (p_inner p) ;; let (i, more) := x in
    c <- parse_comparator i ;;
    vs <- parse_values (fun r => match r with S_attr_values => true | _ => false end)
                       (fun r => match r with S_value => true | _ => false end) parse_value more ;;
    Ok (Comparison c (fst vs) (snd vs)).
  (** [parse_selector_attr], selector.rs:117-136. *)
  Definition parse_attr (p : spair) : result attribute :=
    match p_inner p with
    | [] => unexpected "parse_selector_attr"
    | k :: more =>
        match p_rule k with
        | S_key =>
            key <- parse_key k ;;
            match more with
            | [] => Ok (Attribute key None)
            | c :: _ =>
                match p_rule c with
                | S_attr_comparison => cmp <- parse_attr_comparison c ;; Ok (Attribute key (Some cmp))
                | _ => unexpected "parse_selector_attr"
                end
            end
        | _ => unexpected "parse_selector_attr"
        end
    end.
  (** [parse_selector_directed_relationships], selector.rs:249-267. *)
  Definition parse_directed (p : spair) : result (list str) :=
    x <- next (p_inner p) ;; let (i, _) := x in
    match p_rule i with
    | S_directed_relationships =>
        map_result (fun q => match p_rule q with
                             | S_identifier => ident_from_str (p_text q)
                             | _ => unexpected "parse_selector_directed_relationships"
                             end) (p_inner i)
    | _ => unexpected "parse_selector_directed_relationships"
    end.
  (** [parse_selector_scoped_value], selector.rs:344-355. *)
  Definition parse_scoped_value (p : spair) : result scoped_value :=
    x <- next (p_inner p) ;; let (i, _) := x in
    match p_rule i with
    | S_context_value => path <- parse_path (p_inner i) ;; Ok (ScContext path)
    | S_value => v <- parse_value i ;; Ok (ScValue v)
    | _ => unexpected "parse_selector_scoped_value"
    end.
  (** [parse_selector_scoped_assertion], selector.rs:303-342. *)
  Definition parse_scoped_assertion (p : spair) : result assertion :=
    x <- next (p_inner p) ;; let (i, more) := x in
    v <- match p_rule i with S_scoped_value => parse_scoped_value i | _ => unexpected "parse_selector_scoped_assertion-1" end ;;
    y <- next more ;; let (j, more) := y in
    c <- parse_comparator j ;;
    vs <- parse_values (fun r => match r with S_scoped_values => true | _ => false end)
                       (fun r => match r with S_scoped_value => true | _ => false end) parse_scoped_value more ;;
    Ok (Assertion v c (fst vs) (snd vs)).
  (** [parse_selector_scoped_attr], selector.rs:269-301; the constructors assert that there is an assertion. *)
  Definition parse_scoped_attr (p : spair) : result scoped :=
    x <- next (p_inner p) ;; let (i, more) := x in
    let rest (key : option key) (n : spair) : result scoped :=
      match p_rule n with
      | S_scoped_assertions =>
          l <- map_result (fun q => match p_rule q with
                                    | S_scoped_assertion => parse_scoped_assertion q
                                    | _ => unexpected "parse_selector_scoped_attr"
                                    end) (p_inner n) ;;
          match l with [] => Panic | _ => Ok (Scoped key l) end
      | _ => unexpected "parse_selector_scoped_attr"
      end in
    match p_rule i with
    | S_key => k <- parse_key i ;; y <- next more ;; let (n, _) := y in rest (Some k) n
    | _ => rest None i
    end.
  (** [parse_selector_variable_get], selector.rs:401-411. *)
  Definition parse_variable_get (p : spair) : result str :=
    x <- next (p_inner p) ;; let (i, _) := x in
    match p_rule i with
    | S_identifier => ident_from_str (p_text i)
    | _ => unexpected "parse_selector_function"
    end.

  (** [parse_selector_expression], selector.rs:76-104, with [parse_a_selector], 55-74,
      [parse_selector_function], 357-382, and [parse_selector_variable_set], 384-399, which call each other. *)
  Fixpoint parse_expression (p : spair) : result expr :=
    let a_selector (q : spair) : result selector :=
      match q with
      | Pair r _ inner =>
          match r with
          | S_selector =>
              (fix go (l : list spair) : result selector :=
                 match l with
                 | [] => Ok []
                 | e :: l' =>
                     match p_rule e with
                     | S_selector_expression => x <- parse_expression e ;; xs <- go l' ;; Ok (x :: xs)
                     | _ => unexpected "parse_a_selector"
                     end
                 end) inner
          | _ => unexpected "parse_a_selector"
          end
      end in
    match p with
    | Pair _ _ [] => Panic
    | Pair _ _ (Pair r t inner :: _) =>
        let i := Pair r t inner in
        match r with
        | S_shape_types => t <- parse_shape_types i ;; Ok (XShapeType t)
        | S_attr => a <- parse_attr i ;; Ok (XAttribute a)
        | S_scoped_attr => a <- parse_scoped_attr i ;; Ok (XScoped a)
        | S_forward_undirected => Ok (XNeighbor NbForward)
        | S_reverse_undirected => Ok (XNeighbor NbReverse)
        | S_forward_directed => l <- parse_directed i ;; Ok (XNeighbor (NbForwardDirected l))
        | S_reverse_directed => l <- parse_directed i ;; Ok (XNeighbor (NbReverseDirected l))
        | S_forward_recursive => Ok (XNeighbor NbRecursive)
        | S_function =>
            match inner with
            | [] => Panic
            | n :: more =>
                match p_rule n with
                | S_identifier =>
                    name <- ident_from_str (p_text n) ;;
                    match more with
                    | [] => Panic
                    | Pair ra _ args :: _ =>
                        match ra with
                        | S_function_args =>
                            l <- (fix go (l : list spair) : result (list selector) :=
                                    match l with
                                    | [] => Ok []
                                    | q :: l' =>
                                        match p_rule q with
                                        | S_selector => s <- a_selector q ;; ss <- go l' ;; Ok (s :: ss)
                                        | _ => unexpected "parse_selector_function"
                                        end
                                    end) args ;;
                            match l with [] => Panic | _ => Ok (XFunction name l) end
                        | _ => unexpected "parse_selector_function"
                        end
                    end
                | _ => unexpected "parse_selector_function"
                end
            end
        | S_variable_set =>
            match inner with
            | [] => Panic
            | n :: more =>
                match p_rule n with
                | S_identifier =>
                    name <- ident_from_str (p_text n) ;;
                    match more with
                    | [] => Panic
                    | q :: _ =>
                        match p_rule q with
                        | S_selector => s <- a_selector q ;; Ok (XDefine name s)
                        | _ => unexpected "parse_selector_variable_set"
                        end
                    end
                | _ => unexpected "parse_selector_variable_set"
                end
            end
        | S_variable_get => n <- parse_variable_get i ;; Ok (XReference n)
        | _ => unexpected "parse_selector_expression"
        end
    end.
  Definition parse_a_selector (q : spair) : result selector :=
    match p_rule q with
    | S_selector =>
        map_result (fun e => match p_rule e with
                             | S_selector_expression => parse_expression e
                             | _ => unexpected "parse_a_selector"
                             end) (p_inner q)
    | _ => unexpected "parse_a_selector"
    end.

  (** [parse_selector], selector.rs:34-51. The tree is also printed, which is not modelled. The fuel
      never runs out: see C33. *)
  Definition selector_fuel (s : str) : nat := (S (length s)) * 4000.
  Definition parse_selector (s : str) : result selector :=
    match parse_rule selector_grammar (selector_fuel s) S_input s with
    | None => Panic
    | Some None => Err (EDeserialization (lit "pest"))
    | Some (Some pairs) =>
        x <- next pairs ;; let (top, _) := x in
        match p_rule top with
        | S_input =>
            y <- next (p_inner top) ;; let (i, _) := y in
            match p_rule i with
            | S_selector => parse_a_selector i
            | _ => unexpected "parse_selector"
            end
        | _ => unexpected "parse_selector"
        end
    end.
End Parse.
