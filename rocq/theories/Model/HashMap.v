(** std's [HashMap] as used by the code: an association list whose order is the iteration order.
    [keq] says when two keys match (equal hash and [==], see Identity.v); keys of type [String]
    match exactly.  A freshly inserted key goes to the end: the real position depends on the hash
    seed, so statements about iteration order quantify over permutations instead. *)
From Verif.Model Require Export Base.

Section HM.
  Context {K V : Type} (keq : K -> K -> bool).

  (** [HashMap::get]. *)
  Fixpoint hm_get (k : K) (m : list (K * V)) : option V :=
    match m with
    | [] => None
    | (k', v) :: m' => if keq k' k then Some v else hm_get k m'
    end.

  (** [HashMap::contains_key]. *)
  Definition hm_contains (k : K) (m : list (K * V)) : bool :=
    match hm_get k m with Some _ => true | None => false end.

  (** [HashMap::insert]: "the key is not updated" when it is already there. *)
  Fixpoint hm_insert (k : K) (v : V) (m : list (K * V)) : list (K * V) :=
    match m with
    | [] => [(k, v)]
    | (k', v') :: m' => if keq k' k then (k', v) :: m' else (k', v') :: hm_insert k v m'
    end.

  (** [HashMap::get_mut] followed by an update through the reference. *)
  Fixpoint hm_update (k : K) (f : V -> V) (m : list (K * V)) : list (K * V) :=
    match m with
    | [] => []
    | (k', v) :: m' => if keq k' k then (k', f v) :: m' else (k', v) :: hm_update k f m'
    end.

  (** [HashMap::remove]. *)
  Fixpoint hm_remove (k : K) (m : list (K * V)) : list (K * V) :=
    match m with
    | [] => []
    | (k', v) :: m' => if keq k' k then m' else (k', v) :: hm_remove k m'
    end.

  (** [HashMap::from_iter]/[collect]/[extend]: insert one by one. *)
  Definition hm_from_list (l : list (K * V)) : list (K * V) :=
    fold_left (fun m kv => hm_insert (fst kv) (snd kv) m) l [].

  (** [PartialEq for HashMap]: same length, and every entry is found with an equal value. *)
  Definition hm_eqb (veq : V -> V -> bool) (a b : list (K * V)) : bool :=
    Nat.eqb (length a) (length b)
    && forallb (fun kv => match hm_get (fst kv) b with Some v => veq (snd kv) v | None => false end) a.
End HM.

Definition hm_keys {K V} (m : list (K * V)) : list K := map fst m.
Definition hm_values {K V} (m : list (K * V)) : list V := map snd m.
