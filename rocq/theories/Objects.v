(** Model of the database objects of pysqlsync/formation/object_types.py (data and queries; the
    statements are in Ddl.v).  A [LocalId] is its [id] string. *)
From Verif Require Import PyStr QuoteModel ObjectDict Types.
Open Scope string_scope.

(** object_types.py:14-17 [deleted] *)
Definition deleted (name : string) : string := "pysqlsync$" ++ name.

(** [Column], object_types.py:182-200 *)
Record column : Type := Col {
  c_name : string; c_type : sqltype; c_nullable : bool;
  c_default : option string; c_identity : bool; c_desc : option string }.

(** generated [__eq__] of the data-class *)
Definition col_eqb (a b : column) : bool :=
  String.eqb (c_name a) (c_name b) && type_eqb (c_type a) (c_type b)
  && Bool.eqb (c_nullable a) (c_nullable b) && os_eqb (c_default a) (c_default b)
  && Bool.eqb (c_identity a) (c_identity b) && os_eqb (c_desc a) (c_desc b).

(** [Constraint] and subclasses, object_types.py:240-358.  A [ConstraintReference] is a pair of
    table and columns. *)
Inductive constr : Type :=
| CUnique (n : string) (cols : list string)
| CForeign (n : string) (cols : list string) (rt : qid) (rcols : list string)
| CDiscr (n : string) (cols : list string) (refs : list (qid * list string))
| CCheck (n : string) (cond : string).

Definition k_name (k : constr) : string :=
  match k with CUnique n _ | CForeign n _ _ _ | CDiscr n _ _ | CCheck n _ => n end.

(** [is_alter_table]: object_types.py:267-270 (False), 287-288, 320-321, 353-354 (True) *)
Definition is_alter (k : constr) : bool := match k with CDiscr _ _ _ => false | _ => true end.

Definition sl_eqb := list_eqb String.eqb.
Definition ref_eqb (a b : qid * list string) : bool :=
  qid_eqb (fst a) (fst b) && sl_eqb (snd a) (snd b).
Definition constr_eqb (a b : constr) : bool :=
  match a, b with
  | CUnique n c, CUnique m d => String.eqb n m && sl_eqb c d
  | CForeign n c t r, CForeign m d u s =>
      String.eqb n m && sl_eqb c d && qid_eqb t u && sl_eqb r s
  | CDiscr n c r, CDiscr m d s => String.eqb n m && sl_eqb c d && list_eqb ref_eqb r s
  | CCheck n c, CCheck m d => String.eqb n m && String.eqb c d
  | _, _ => false
  end.

(** [Table] and [EnumTable], object_types.py:361-392, 585-606.  [t_enum] is [Some values] for an
    instance of [EnumTable]. *)
Record table : Type := Tab {
  t_name : qid; t_columns : list column; t_pk : list string;
  t_constraints : list constr; t_desc : option string; t_enum : option (list pyval) }.

(** generated [__eq__] (inherited by [EnumTable], which is not a data-class): the classes must be
    the same, [values] is not compared *)
Definition is_some {A} (o : option A) : bool := match o with Some _ => true | None => false end.
Definition table_eqb (a b : table) : bool :=
  Bool.eqb (is_some (t_enum a)) (is_some (t_enum b))
  && qid_eqb (t_name a) (t_name b) && od_eqb c_name col_eqb (t_columns a) (t_columns b)
  && sl_eqb (t_pk a) (t_pk b) && od_eqb k_name constr_eqb (t_constraints a) (t_constraints b)
  && os_eqb (t_desc a) (t_desc b).

(** [EnumType], object_types.py:92-98 *)
Record enumt : Type := Enum { e_name : qid; e_values : list string }.
Definition enum_eqb (a b : enumt) : bool :=
  qid_eqb (e_name a) (e_name b) && sl_eqb (e_values a) (e_values b).

(** [StructMember], [StructType], object_types.py:124-162 *)
Record member : Type := Mem { m_name : string; m_type : sqltype; m_desc : option string }.
Definition mem_eqb (a b : member) : bool :=
  String.eqb (m_name a) (m_name b) && type_eqb (m_type a) (m_type b) && os_eqb (m_desc a) (m_desc b).
Record structt : Type := Struct { s_name : qid; s_members : list member; s_desc : option string }.
Definition struct_eqb (a b : structt) : bool :=
  qid_eqb (s_name a) (s_name b) && od_eqb m_name mem_eqb (s_members a) (s_members b)
  && os_eqb (s_desc a) (s_desc b).

(** [Namespace], object_types.py:625-676; keys of the collections are local ids *)
Record namespace : Type := Ns {
  n_name : string; n_enums : list enumt; n_structs : list structt; n_tables : list table }.
Definition e_key (e : enumt) := local_id (e_name e).
Definition s_key (s : structt) := local_id (s_name s).
Definition t_key (t : table) := local_id (t_name t).
Definition ns_eqb (a b : namespace) : bool :=
  String.eqb (n_name a) (n_name b) && od_eqb e_key enum_eqb (n_enums a) (n_enums b)
  && od_eqb s_key struct_eqb (n_structs a) (n_structs b)
  && od_eqb t_key table_eqb (n_tables a) (n_tables b).

(** [Catalog], object_types.py:770-788 *)
Definition catalog : Type := list namespace.
Definition cat_eqb (a b : catalog) : bool := od_eqb n_name ns_eqb a b.

(** ** Table queries (object_types.py:403-519) *)

(** [get_columns], 407-426 *)
Definition get_columns (t : table) (names : option (list string)) : res (list column) :=
  match names with
  | None => Ok (t_columns t)
  | Some ns => map_res (fun n => match od_get c_name n (t_columns t) with
                                 | Some c => Ok c | None => Err "ValueError" end) ns
  end.

(** [check_primary], 428-432 *)
Definition check_primary (t : table) : res unit :=
  match t_pk t with [_] => Ok tt | _ => Err "KeyError" end.

(** [is_primary_column], 434-438 *)
Definition is_primary_column (t : table) (c : string) : res bool :=
  do _ <- check_primary t; Ok (str_in c (t_pk t)).

(** [get_primary_column], 440-448 *)
Definition get_primary_column (t : table) : res column :=
  do _ <- check_primary t;
  match find (fun c => str_in (c_name c) (t_pk t)) (t_columns t) with
  | Some c => Ok c
  | None => Err "KeyError"
  end.

(** [get_value_columns], 450-463 *)
Definition get_value_columns (t : table) (names : option (list string)) : res (list column) :=
  do cs <- get_columns t names;
  Ok (filter (fun c => negb (str_in (c_name c) (t_pk t)) && negb (c_identity c)) cs).

(** [is_unique_column], 465-477 *)
Definition is_unique_column (t : table) (c : string) : bool :=
  existsb (fun k => match k with
                    | CUnique _ cols => negb (Nat.ltb 1 (length cols)) && str_in c cols
                    | _ => false end) (t_constraints t).

(** [is_lookup_column], 479-482 *)
Definition is_lookup_column (t : table) (c : string) : res bool :=
  do p <- is_primary_column t c; Ok (p || is_unique_column t c).

(** [is_lookup_table], 484-497 *)
Definition is_lookup_table (t : table) : res bool :=
  if negb (Nat.eqb (length (t_columns t)) 2) then Ok false
  else (fix go (cs : list column) : res bool :=
          match cs with
          | [] => Ok true
          | c :: r => do p <- is_primary_column t (c_name c);
                      if p then go r
                      else if is_unique_column t (c_name c) then go r else Ok false
          end) (t_columns t).

(** [is_relation], 499-511 *)
Definition is_relation (t : table) (c : string) : bool :=
  existsb (fun k => match k with
                    | CForeign _ cols _ _ => negb (Nat.ltb 1 (length cols)) && str_in c cols
                    | _ => false end) (t_constraints t).

(** [get_constraint], 513-525 *)
Fixpoint find_reference (ks : list constr) (c : string) : option (qid * list string) :=
  match ks with
  | [] => None
  | CForeign _ cols rt rc :: r =>
      if negb (Nat.ltb 1 (length cols)) && str_in c cols then Some (rt, rc) else find_reference r c
  | _ :: r => find_reference r c
  end.
Definition get_constraint (t : table) (c : string) : res (qid * list string) :=
  match find_reference (t_constraints t) c with Some r => Ok r | None => Err "KeyError" end.

(** [table_constraints], 580-582 *)
Definition table_constraints (t : table) : list constr := filter is_alter (t_constraints t).

(** ** References between namespaces *)

(** [StructType.get_referenced_types], 165-170; [Table.get_referenced_types], 527-532.
    Python builds sets; the order of the list is arbitrary. *)
Definition opt_list {A} (o : option A) : list A := match o with Some x => [x] | None => [] end.
Definition struct_refs (s : structt) : list qid := flat_map (fun m => opt_list (user_ref (m_type m))) (s_members s).
Definition table_type_refs (t : table) : list qid := flat_map (fun c => opt_list (user_ref (c_type c))) (t_columns t).
(** [Table.get_referenced_tables], 534-541 *)
Definition table_refs (t : table) : list qid :=
  flat_map (fun k => match k with
                     | CForeign _ _ rt _ => [rt]
                     | CDiscr _ _ refs => map fst refs
                     | _ => [] end) (t_constraints t).
(** [Namespace.get_referenced_namespaces], 681-688 *)
Definition referenced_namespaces (n : namespace) : list string :=
  flat_map (fun q => opt_list (scope_id q))
    (flat_map struct_refs (n_structs n) ++
     flat_map (fun t => table_type_refs t ++ table_refs t) (n_tables n))%list.

(** ** Topological sort

    [strong_typing.topological.topological_sort] (external library) is modelled from its documented
    behaviour: depth-first visit of the nodes in dictionary order; self-references are ignored; a
    node met again while its visit is in progress raises [RuntimeError]; nodes are appended when
    their visit finishes.  [fuel] bounds the recursion; exhaustion is a distinct error and is shown
    not to happen.  The order in which a Python set of successors is iterated is unspecified: it is
    the order of the list here. *)
Section Topo.
  Variable succ : string -> list string.
  Fixpoint visit (fuel : nat) (path : list string) (n : string) (st : list string) : res (list string) :=
    match fuel with
    | O => Err "FUEL"
    | S f =>
        if str_in n st then Ok st
        else if str_in n path then Err "RuntimeError"
        else
          do st' <- (fix go (ms : list string) (st : list string) : res (list string) :=
                       match ms with
                       | [] => Ok st
                       | m :: r => if String.eqb m n then go r st
                                   else do st' <- visit f (n :: path) m st; go r st'
                       end) (succ n) st;
          Ok (st' ++ [n])%list
    end.
  Fixpoint visit_all (fuel : nat) (ns : list string) (st : list string) : res (list string) :=
    match ns with
    | [] => Ok st
    | n :: r => do st' <- visit fuel [] n st; visit_all fuel r st'
    end.
End Topo.
Definition topological_sort (nodes : list string) (succ : string -> list string) : res (list string) :=
  visit_all succ (S (length nodes)) nodes [].

(** [Catalog.sort], object_types.py:840-854: references are restricted to namespaces of the catalog *)
Definition ns_succ (c : catalog) (name : string) : list string :=
  match od_get n_name name c with
  | Some ns => filter (fun m => od_mem n_name m c) (referenced_namespaces ns)
  | None => []
  end.
Definition cat_sort (c : catalog) : res catalog :=
  do ord <- topological_sort (od_keys n_name c) (ns_succ c);
  od_reorder n_name ord c.

(** ** Merging (object_types.py:729-764, 856-863) *)

(** the three loops of [Namespace.merge]; [copy.deepcopy] is the identity on values *)
Fixpoint merge_objs {A} (key : A -> string) (eqb : A -> A -> bool) (self op : list A) : res (list A) :=
  match op with
  | [] => Ok self
  | x :: r => match od_get key (key x) self with
              | Some y => if eqb y x then merge_objs key eqb self r else Err "FormationError"
              | None => do self' <- od_add key x self; merge_objs key eqb self' r
              end
  end.
Definition ns_merge (self op : namespace) : res namespace :=
  do es <- merge_objs e_key enum_eqb (n_enums self) (n_enums op);
  do ss <- merge_objs s_key struct_eqb (n_structs self) (n_structs op);
  do ts <- merge_objs t_key table_eqb (n_tables self) (n_tables op);
  Ok (Ns (n_name self) es ss ts).
(** [Catalog.merge]: an existing namespace object is updated in place (keeps its position) *)
Fixpoint cat_merge (self op : catalog) : res catalog :=
  match op with
  | [] => Ok self
  | x :: r => match od_get n_name (n_name x) self with
              | Some y => do m <- ns_merge y x; cat_merge (od_set n_name m self) r
              | None => do self' <- od_add n_name x self; cat_merge self' r
              end
  end.
