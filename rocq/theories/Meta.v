(** Model of class creation: the metaclass of HasProperties, base.py:25-248.
    A class body and the classes created before it give the class record used
    by World.v.

    Not modelled here: documentation strings and [_doc_order]/[_doc_private], see Docs.v
    (base.py:152-214), registries other than one (base.py:246), and changing
    attributes of a class after its creation. *)
From Verif Require Export World.
Local Open Scope string_scope.
Local Open Scope list_scope.
Local Open Scope nat_scope.

(** An entry of the class dictionary: a property, an observer or validator of
    properties, a class validator, or anything else (base.py:89-101). *)
Inductive member :=
| MProp (d : pdecl)
| MObs (o : obsdecl)
| MCval (v : cvalid)
| MOther.

(** A class statement: name, bases (indices of earlier classes; [object] is
    left out), whether it names PropertyMetaclass itself (only HasProperties
    does, base.py:284), its dictionary except [_defaults], and [_defaults]. *)
Record cbody := Body {
  b_name : string; b_bases : list nat; b_meta : bool;
  b_dict : dict member; b_defaults : option (dict dflt)
}.

(** A created class: its body, [__mro__] (without [object]), whether its type
    is PropertyMetaclass, [_props], [_prop_observers], [_class_validators] and
    the [_defaults] found in its own [__dict__] (base/base.py:59-247). *)
Record mcls := MC {
  m_body : cbody;
  m_mro : list nat;
  m_meta : bool;
  m_props : dict pdecl;
  m_obs : dict obsdecl;
  m_vals : dict cvalid;
  m_def : option (dict dflt)
}.

(** * Method resolution order: CPython's C3 linearization (base/base.py:87-247) *)
Definition mem_nat (n : nat) (l : list nat) : bool := existsb (Nat.eqb n) l.
(** the first head that is in no tail (base/base.py:87-247) *)
Fixpoint c3_head (all ls : list (list nat)) : option nat :=
  match ls with
  | [] => None
  | [] :: r => c3_head all r
  | (h :: _) :: r => if existsb (fun l => mem_nat h (tl l)) all then c3_head all r else Some h
  end.
(** Of Python's MRO: take the class out of the lists (base/base.py:87-247). *)
Definition c3_drop (h : nat) (l : list nat) : list nat :=
  match l with x :: r => if Nat.eqb x h then r else l | [] => [] end.
(** Of Python's MRO: merge the lists (base/base.py:87-247). *)
Fixpoint c3_merge (fuel : nat) (ls : list (list nat)) : option (list nat) :=
  if forallb (fun l => match l with [] => true | _ => false end) ls then Some []
  else match fuel with
       | 0 => None
       | S f => match c3_head ls ls with
                | None => None
                | Some h => match c3_merge f (map (c3_drop h) ls) with
                            | Some r => Some (h :: r)
                            | None => None
                            end
                end
       end.

Section Meta.
  (** the classes created so far *)
  Variable T : list mcls.

  (** Plumbing: a class by its number. *)
  Definition get_cls (k : nat) : option mcls := nth_error T k.
  (** [__mro__] (base/base.py:87-247) *)
  Definition mro_of (k : nat) : list nat := match get_cls k with Some c => m_mro c | None => [] end.
  (** [isinstance(base, PropertyMetaclass)] (base.py:33, 38) *)
  Definition is_meta (k : nat) : bool := match get_cls k with Some c => m_meta c | None => false end.
  (** Python's MRO of a class with these bases (base/base.py:87-247). *)
  Definition c3 (bases : list nat) : option (list nat) :=
    let ls := map mro_of bases ++ [bases] in c3_merge (length (concat ls)) ls.

  (** base.py:29-41: the ancestors in the order in which they are applied *)
  Definition all_bases (bases : list nat) : list nat :=
    fold_left (fun acc b =>
      fold_left (fun acc item =>
        if negb (is_meta item) then acc
        else if mem_nat item acc then acc else acc ++ [item]) (rev (mro_of b)) acc)
      (rev bases) [].
  (** base.py:33-34: [output_keys] *)
  Definition key_kept {A} (attr : mcls -> dict A) (bases : list nat) (key : string) : bool :=
    existsb (fun b => match get_cls b with
                      | Some c => m_meta c && dhas (attr c) key
                      | None => false
                      end) bases.
  (** [dict.update] (base/base.py:25-56) *)
  Definition dupdate {A} (d e : dict A) : dict A := fold_left (fun d kv => dset d (fst kv) (snd kv)) e d.
  (** base.py:25-55 [build_from_bases] *)
  Definition build_from_bases {A} (attr : mcls -> dict A) (bases : list nat) (classdict : list string) (own : dict A) : dict A :=
    let out := fold_left (fun out b =>
      match get_cls b with
      | Some c => fold_left (fun out kv =>
          if dhas (b_dict (m_body c)) (fst kv) && key_kept attr bases (fst kv)
          then dset out (fst kv) (snd kv) else out) (attr c) out
      | None => out
      end) (all_bases bases) [] in
    let out := fold_left (fun out key => ddel out key) classdict out in
    dupdate out own.

  (** base.py:89-101 *)
  Definition own_props (b : cbody) : dict pdecl :=
    flat_map (fun kv => match snd kv with MProp d => [(fst kv, d)] | _ => [] end) (b_dict b).
  (** base.py:94-97: the observers in the body of the class. *)
  Definition own_obs (b : cbody) : dict obsdecl :=
    flat_map (fun kv => match snd kv with MObs o => [(fst kv, o)] | _ => [] end) (b_dict b).
  (** base.py:98-101: the validators in the body of the class. *)
  Definition own_vals (b : cbody) : dict cvalid :=
    flat_map (fun kv => match snd kv with MCval o => [(fst kv, o)] | _ => [] end) (b_dict b).

  (** base.py:129-132 *)
  Definition renamed_ok (props own : dict pdecl) : bool :=
    forallb (fun kv => match pd_kind (snd kv) with KRenamed nn => dhas props nn | _ => true end) own.
  (** base.py:136-144 *)
  Definition observed_ok (props : dict pdecl) (own : dict obsdecl) : bool :=
    forallb (fun kv => match od_names (snd kv) with
                       | None => true
                       | Some ns => forallb (fun nm => match dget props nm with
                                                       | Some d => match pd_kind d with KProp => true | _ => false end
                                                       | None => false
                                                       end) ns
                       end) own.

  (** [getattr(cls, '_defaults', dict())] for a class with this MRO (base/base.py:25-56) *)
  Fixpoint attr_defaults (own : option (dict dflt)) (mro : list nat) : dict dflt :=
    match own with
    | Some d => d
    | None => match mro with
              | [] => []
              | k :: r => attr_defaults (match get_cls k with Some c => m_def c | None => None end) r
              end
    end.
  (** base.py:222-225; [mro] is the rest of the MRO of the new class *)
  Definition merged_defaults (own : option (dict dflt)) (mro : list nat) : dict dflt :=
    let below := fold_left (fun acc k =>
      match get_cls k with
      | Some c => dupdate acc (attr_defaults (m_def c) (tl (m_mro c)))
      | None => acc
      end) (rev mro) [] in
    dupdate below (attr_defaults own mro).
End Meta.

(** The class record of World.v; a listener runs the method of its observer (base/base.py:87-247). *)
Definition to_cls (c : mcls) : cls :=
  Cls (b_name (m_body c)) (m_props c) (match m_def c with Some d => d | None => [] end)
      (map snd (m_obs c)) (map snd (m_vals c)) (m_mro c)
      (flat_map (fun kv => match snd kv with MProp _ => [] | _ => [(fst kv, VNone)] end) (b_dict (m_body c))).
(** The classes in the form of World.v (base/base.py:87-247). *)
Definition to_ctab (T : list mcls) (reg : dict nat) : ctable := CT (map to_cls T) reg.

Section Create.
  Variable E : env.
  Variable U : ucode.
  Variable reg : dict nat.
  Variable fuel : nat.
  Variable T : list mcls.

  (** base.py:228-242, one default *)
  Definition check_default (props : dict pdecl) (kv : string * dflt) : M unit :=
    match dget props (fst kv) with
    | None => throw ExAttr
    | Some d =>
        try_ (let* v := match snd kv with
                        | DUndef => ret VUndef
                        | DVal v => ret v
                        | DCall cb => run_prog E (to_ctab T reg) U fuel (u_default U cb)
                        end in
              if is_undef v then ret tt
              else p_validate E (to_ctab T reg) (exec E (to_ctab T reg) U fuel) (decl_type d) None (fst kv) v ;; ret tt)
             (fun e => if is_value_error e then throw ExAttr else throw e)
    end.

  (** base.py:87-248 [PropertyMetaclass.__new__], or [type.__new__] for a class
      without HasProperties among its ancestors *)
  Definition create (b : cbody) : M mcls :=
    let id := length T in
    if b_meta b || existsb (is_meta T) (b_bases b) then
      let keys := dkeys (b_dict b) in
      let props := build_from_bases T m_props (b_bases b) keys (own_props b) in
      let obs := build_from_bases T m_obs (b_bases b) keys (own_obs b) in
      let vals := build_from_bases T m_vals (b_bases b) keys (own_vals b) in
      if negb (renamed_ok props (own_props b)) then throw ExType
      else if negb (observed_ok props (own_obs b)) then throw ExType
      else match c3 T (b_bases b) with
           | None => throw ExType
           | Some mro =>
               let defs := merged_defaults T (b_defaults b) mro in
               iterM (check_default props) defs ;;
               ret (MC b (id :: mro) true props obs vals (Some defs))
           end
    else
      match c3 T (b_bases b) with
      | None => throw ExType
      | Some mro => ret (MC b (id :: mro) false [] [] [] (b_defaults b))
      end.
End Create.
