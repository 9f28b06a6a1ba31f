(** Model of atelier-json/src/{reader,writer}.rs, at the level of [serde_json::Value]: for the text
    parser and printer of serde_json see JsonText.v. *)
From Verif.Model Require Export SemModel.

(** [serde_json::Value] (version 1.0, default features: objects are [BTreeMap]s, that is sorted by
    key). A number is an integer (-2^63 .. 2^64-1) or a finite float (given by its bits). *)
Inductive json :=
| JNull
| JBool (b : bool)
| JInt (n : Z)
| JFloat (bits : Z)
| JString (s : str)
| JArray (l : list json)
| JObject (l : list (str * json)).
Notation jmap := (list (str * json)).

(** [BTreeMap::insert]. *)
Fixpoint bm_insert {V} (k : str) (v : V) (m : list (str * V)) : list (str * V) :=
  match m with
  | [] => [(k, v)]
  | (k', v') :: m' =>
      match str_cmp k k' with
      | Lt => (k, v) :: m
      | Eq => (k', v) :: m'
      | Gt => (k', v') :: bm_insert k v m'
      end
  end.
(** A fresh map filled by repeated [insert]. *)
Definition bm_from_list {V} (l : list (str * V)) : list (str * V) :=
  fold_left (fun m kv => bm_insert (fst kv) (snd kv) m) l [].
(** [Map::get]. *)
Definition jm_get (k : string) (m : jmap) : option json := hm_get str_eqb (lit k) m.
(** [Value::get(&str)]: [None] unless an object. *)
Definition jget (k : string) (j : json) : option json :=
  match j with JObject m => jm_get k m | _ => None end.

(** Results of a list of calls, stopping at the first that is not [Ok] ([collect] into a [Result], or
    a loop with [?]). *)
Definition rmap {A B} (f : A -> result B) : list A -> result (list B) :=
  fix go l := match l with
              | [] => Ok []
              | x :: l' => y <- f x ;; ys <- go l' ;; Ok (y :: ys)
              end.

(** [Display for Version], lib.rs:290-294; [FromStr], 296-306. *)
Definition version_display (v : version) : str := lit "1.0".
Definition version_from_str (s : str) : result version :=
  if str_eqb s (lit "1") || str_eqb s (lit "1.0") then Ok V10 else Err (EInvalidVersionNumber (Some s)).

(** ** Writer *)

(** [from_value], writer.rs:320-338; [JsonNumber::from_f64] is [None] for NaN and infinities, and the
    code unwraps it. *)
Fixpoint write_value (v : value) : result json :=
  match v with
  | VNone => Ok JNull
  | VArray vs => l <- rmap write_value vs ;; Ok (JArray l)
  | VObject vs =>
      l <- rmap (fun kv => j <- write_value (snd kv) ;; Ok (fst kv, j)) vs ;; Ok (JObject (bm_from_list l))
  | VNumber (NInteger n) => Ok (JInt n)
  | VNumber (NFloat b) => if f64_is_nan b || f64_is_inf b then Panic else Ok (JFloat b)
  | VBoolean b => Ok (JBool b)
  | VString s => Ok (JString s)
  end.

(** [from_reference], writer.rs:340-347. *)
Definition write_reference (id : shape_id) : json := JObject [(lit "target", JString (sid_display id))].

(** [from_traits], writer.rs:283-295. *)
Definition write_traits (ts : traits) : result json :=
  l <- rmap (fun t => j <- match snd t with None => Ok (JObject []) | Some v => write_value v end ;;
                      Ok (sid_display (fst t), j)) ts ;;
  Ok (JObject (bm_from_list l)).

(** The [has_traits] test of writer.rs:121-126 and 312-317. *)
Definition traits_field (ts : traits) : result (list (str * json)) :=
  match ts with [] => Ok [] | _ => t <- write_traits ts ;; Ok [(lit "traits", t)] end.

(** [from_member], writer.rs:305-319. *)
Definition write_member (m : member_shape) : result json :=
  ts <- traits_field (ms_traits m) ;;
  Ok (JObject (bm_from_list ((lit "target", JString (sid_display (ms_target m))) :: ts))).

(** [from_members], writer.rs:297-303. *)
Definition write_members (ms : members) : result json :=
  l <- rmap (fun e => j <- write_member (snd e) ;; Ok (ms_id (snd e), j)) ms ;;
  Ok (JObject (bm_from_list l)).

(** The optional entries of writer.rs:172-270: present when not empty / [Some]. *)
Definition opt_field (k : string) (o : option shape_id) : jmap :=
  match o with Some id => [(lit k, write_reference id)] | None => [] end.
Definition ids_field (k : string) (l : list shape_id) : jmap :=
  match l with [] => [] | _ => [(lit k, JArray (map write_reference l))] end.
Definition members_field (ms : members) : result jmap :=
  match ms with [] => Ok [] | _ => j <- write_members ms ;; Ok [(lit "members", j)] end.
Definition renames_field (l : list (shape_id * str)) : jmap :=
  match l with
  | [] => []
  | _ => [(lit "rename", JObject (bm_from_list (map (fun e => (sid_display (fst e), JString (snd e))) l)))]
  end.
Definition identifiers_field (l : list (str * shape_id)) : jmap :=
  match l with
  | [] => []
  | _ => [(lit "identifiers", JObject (bm_from_list (map (fun e => (fst e, write_reference (snd e))) l)))]
  end.
Definition type_field (t : str) : str * json := (lit "type", JString t).

(** The match of [from_shape], writer.rs:127-279: the entries inserted, in order. *)
Definition write_body (b : shape_kind) : result jmap :=
  match b with
  | KSimple s => Ok [type_field (simple_display s)]
  | KList m => j <- write_member m ;; Ok [type_field (lit "list"); (lit "member", j)]
  | KSet m => j <- write_member m ;; Ok [type_field (lit "set"); (lit "member", j)]
  | KMap k v =>
      jk <- write_member k ;; jv <- write_member v ;;
      Ok [type_field (lit "map"); (lit "key", jk); (lit "value", jv)]
  | KStructure ms => f <- members_field ms ;; Ok (type_field (lit "structure") :: f)
  | KUnion ms => f <- members_field ms ;; Ok (type_field (lit "union") :: f)
  | KService s =>
      Ok (type_field (lit "service") :: (lit "version", JString (sv_version s))
          :: ids_field "operations" (sv_operations s) ++ ids_field "resources" (sv_resources s)
          ++ renames_field (sv_renames s))
  | KOperation o =>
      Ok (type_field (lit "operation") :: opt_field "input" (op_input o) ++ opt_field "output" (op_output o)
          ++ ids_field "errors" (op_errors o))
  | KResource r =>
      Ok (type_field (lit "resource")
          :: identifiers_field (rs_identifiers r)
          ++ opt_field "create" (rs_create r) ++ opt_field "put" (rs_put r) ++ opt_field "read" (rs_read r)
          ++ opt_field "update" (rs_update r) ++ opt_field "delete" (rs_delete r) ++ opt_field "list" (rs_list r)
          ++ ids_field "operations" (rs_operations r)
          ++ ids_field "collectionOperations" (rs_collection_operations r)
          ++ ids_field "resources" (rs_resources r))
  | KUnresolved => Ok [type_field (lit "apply")]
  end.

(** [from_shape], writer.rs:119-281. *)
Definition write_shape (s : shape) : result json :=
  ts <- traits_field (ts_traits s) ;; b <- write_body (ts_body s) ;; Ok (JObject (bm_from_list (ts ++ b))).

(** [from_shapes], writer.rs:111-117. *)
Definition write_shapes (m : model) : result json :=
  l <- rmap (fun s => j <- write_shape s ;; Ok (sid_display (ts_id s), j)) (shapes m) ;;
  Ok (JObject (bm_from_list l)).

(** [model_to_json], writer.rs:55-73. *)
Definition write_metadata (md : list (str * value)) : result jmap :=
  match md with
  | [] => Ok []
  | _ => l <- rmap (fun e => j <- write_value (snd e) ;; Ok (fst e, j)) md ;;
         Ok [(lit "metadata", JObject (bm_from_list l))]
  end.
Definition model_to_json (m : model) : result json :=
  md <- write_metadata (m_metadata m) ;; sh <- write_shapes m ;;
  Ok (JObject (bm_from_list ((lit "smithy", JString (version_display (m_version m))) :: md ++ [(lit "shapes", sh)]))).

(** ** Reader *)

(** [as i64] of a [u64]: two's complement wrap-around. *)
Definition wrap_i64 (n : Z) : Z := if (n >? 0x7FFFFFFFFFFFFFFF)%Z then (n - 0x10000000000000000)%Z else n.

(** [JsonReader::value], reader.rs:406-443. The last [else] is unreachable: a serde_json number is
    always one of f64, i64, u64. *)
Fixpoint read_value (j : json) : value :=
  match j with
  | JNull => VNone
  | JBool b => VBoolean b
  | JInt n => VNumber (NInteger (wrap_i64 n))
  | JFloat b => VNumber (NFloat b)
  | JString s => VString s
  | JArray l => VArray (map read_value l)
  | JObject l => VObject (hm_from_list str_eqb (map (fun kv => (fst kv, read_value (snd kv))) l))
  end.

Section WithHasher.
  Context `{Hasher}.

  Definition deserialization {A} (what : string) : result A := Err (EDeserialization (lit what)).

  (** [traits], reader.rs:238-246. *)
  Definition read_traits (m : jmap) : result traits :=
    l <- rmap (fun kv => id <- sid_from_str (fst kv) ;; Ok (id, Some (read_value (snd kv)))) m ;;
    Ok (hm_from_list sid_key_eqb l).

  (** [append_traits(&self.traits(vs)?)?] on an element without traits, guarded by the [if let] of
      reader.rs:125-127, 263-265, 380-382. *)
  Definition read_traits_of (m : jmap) : result traits :=
    match jm_get "traits" m with
    | Some (JObject vs) =>
        ts <- read_traits vs ;;
        match append_traits [] ts with
        | (ts', Ok _) => Ok ts'
        | (_, Err e) => Err e
        | (_, Panic) => Panic
        end
    | _ => Ok []
    end.

  (** [member], reader.rs:372-391: every member is called "member", so that the assertion of
      [ListOrSet::from], aggregate.rs, always holds and is not modelled here. *)
  Definition read_member (j : option json) : result member_shape :=
    match j with
    | Some (JObject ms) =>
        match jm_get "target" ms with
        | Some (JString t) =>
            id <- sid_from_str t ;; ts <- read_traits_of ms ;; Ok (MS (lit "member") ts id)
        | _ => deserialization "JsonReader::target"
        end
    | _ => deserialization "JsonReader::target"
    end.

  (** [target], reader.rs:358-370; [optional_target], 350-356; [target_list], 329-348. *)
  Definition read_target (j : option json) : result shape_id :=
    match j with
    | Some (JObject ms) =>
        match jm_get "target" ms with
        | Some (JString t) => sid_from_str t
        | _ => deserialization "JsonReader::target"
        end
    | _ => deserialization "JsonReader::target"
    end.
  Definition read_optional_target (j : option json) : result (option shape_id) :=
    match j with None => Ok None | Some _ => id <- read_target j ;; Ok (Some id) end.
  Definition read_target_list (j : option json) : result (list shape_id) :=
    match j with
    | None => Ok []
    | Some (JArray l) => rmap (fun x => read_target (Some x)) l
    | Some _ => deserialization "JsonReader::target_list"
    end.

  (** [members], reader.rs:248-277. *)
  Definition read_named_member (kv : str * json) : result member_shape :=
    match snd kv with
    | JObject ms =>
        t <- match jm_get "target" ms with
             | Some (JString t) => sid_from_str t
             | _ => deserialization "JsonReader::members/target"
             end ;;
        n <- ident_from_str (fst kv) ;;
        ts <- read_traits_of ms ;;
        Ok (MS n ts t)
    | _ => deserialization "JsonReader::members"
    end.
  (** The [if let] of reader.rs:152-156 and 162-166. *)
  Definition read_members_of (j : json) : result members :=
    match jget "members" j with
    | Some (JObject vs) => l <- rmap read_named_member vs ;; Ok (su_with_members l)
    | _ => Ok []
    end.

  (** [renames_hash], reader.rs:279-300, with [string_value], 393-404. *)
  Definition read_rename (kv : str * json) : result (shape_id * str) :=
    k <- sid_from_str (fst kv) ;;
    v <- match snd kv with JString s => ident_from_str s | _ => deserialization "JsonReader::string_value" end ;;
    Ok (k, v).
  Definition read_renames (j : option json) : result (list (shape_id * str)) :=
    match j with
    | None => Ok []
    | Some (JObject ms) => l <- rmap read_rename ms ;; Ok (hm_from_list sid_key_eqb l)
    | Some _ => deserialization "JsonReader::renames_hash"
    end.
  (** [identifiers_hash], reader.rs:302-327 (which also prints each entry to standard output). *)
  Definition read_identifier (kv : str * json) : result (str * shape_id) :=
    k <- ident_from_str (fst kv) ;; v <- read_target (Some (snd kv)) ;; Ok (k, v).
  Definition read_identifiers (j : option json) : result (list (str * shape_id)) :=
    match j with
    | None => Ok []
    | Some (JObject ms) => l <- rmap read_identifier ms ;; Ok (hm_from_list ident_key_eqb l)
    | Some _ => deserialization "JsonReader::renames_hash"
    end.

  (** [Service::new], service.rs:53-61, panics on an empty version. *)
  Definition service_new (v : str) : result service :=
    match v with [] => Panic | _ => Ok (Service v [] [] []) end.

  (** [shape], reader.rs:135-236. *)
  Definition read_body (j : json) : result shape_kind :=
    match jget "type" j with
    | Some (JString s) =>
        match simple_from_str s with
        | Ok st => Ok (KSimple st)
        | _ =>
            if str_eqb s (lit "apply") then Ok KUnresolved
            else if str_eqb s (lit "list") then m <- read_member (jget "member" j) ;; Ok (KList m)
            else if str_eqb s (lit "set") then m <- read_member (jget "member" j) ;; Ok (KSet m)
            else if str_eqb s (lit "map") then
              k <- read_member (jget "key" j) ;; v <- read_member (jget "value" j) ;; Ok (KMap k v)
            else if str_eqb s (lit "structure") then ms <- read_members_of j ;; Ok (KStructure ms)
            else if str_eqb s (lit "union") then ms <- read_members_of j ;; Ok (KUnion ms)
            else if str_eqb s (lit "service") then
              match jget "version" j with
              | Some (JString v) =>
                  sv <- service_new v ;;
                  ops <- read_target_list (jget "operations" j) ;;
                  rs <- read_target_list (jget "resources" j) ;;
                  rn <- read_renames (jget "rename" j) ;;
                  Ok (KService (Service (sv_version sv) ops rs rn))
              | _ => Err (EInvalidVersionNumber None)
              end
            else if str_eqb s (lit "operation") then
              i <- read_optional_target (jget "input" j) ;;
              o <- read_optional_target (jget "output" j) ;;
              es <- read_target_list (jget "errors" j) ;;
              Ok (KOperation (Operation i o es))
            else if str_eqb s (lit "resource") then
              ids <- read_identifiers (jget "identifiers" j) ;;
              c <- read_optional_target (jget "create" j) ;;
              p <- read_optional_target (jget "put" j) ;;
              r <- read_optional_target (jget "read" j) ;;
              u <- read_optional_target (jget "update" j) ;;
              d <- read_optional_target (jget "delete" j) ;;
              l <- read_optional_target (jget "list" j) ;;
              ops <- read_target_list (jget "operations" j) ;;
              cops <- read_target_list (jget "collectionOperations" j) ;;
              rs <- read_target_list (jget "resources" j) ;;
              Ok (KResource (Resource ids c p r u d l ops cops rs))
            else deserialization "JsonReader::shape/type"
        end
    | _ => deserialization "JsonReader::shape"
    end.

  (** One round of [shapes], reader.rs:120-130: id, body, then [v.get("traits")]. *)
  Definition read_shape (kv : str * json) : result shape :=
    id <- sid_from_str (fst kv) ;;
    b <- read_body (snd kv) ;;
    ts <- match snd kv with JObject ms => read_traits_of ms | _ => Ok [] end ;;
    Ok (Shape id ts b).
  (** [shapes], reader.rs:117-133; [metadata], 107-115; [version], 94-105. *)
  Definition read_shapes (j : option json) : result (list shape) :=
    match j with Some (JObject vs) => rmap read_shape vs | _ => Ok [] end.
  Definition read_metadata (j : option json) : list (str * value) :=
    match j with
    | Some (JObject vs) => hm_from_list str_eqb (map (fun kv => (fst kv, read_value (snd kv))) vs)
    | _ => []
    end.
  Definition read_version (j : option json) : result version :=
    match j with Some (JString v) => version_from_str v | _ => deserialization "JsonReader::version" end.

  (** [model], reader.rs:69-92. *)
  Definition read_model (j : json) : result model :=
    match j with
    | JObject vs =>
        v <- read_version (jm_get "smithy" vs) ;;
        match merge_metadata (model_new v) (read_metadata (jm_get "metadata" vs)) with
        | (m, Ok _) =>
            ss <- read_shapes (jm_get "shapes" vs) ;;
            match merge_shapes m (map (fun s => (ts_id s, s)) ss) with
            | (m', Ok _) => Ok m'
            | (_, Err e) => Err e
            | (_, Panic) => Panic
            end
        | (_, Err e) => Err e
        | (_, Panic) => Panic
        end
    | _ => deserialization "JsonReader::model"
    end.
End WithHasher.
