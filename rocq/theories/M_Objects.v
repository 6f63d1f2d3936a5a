(** Model of legalize() on objects: the elements of a list are references to objects, and the
    line of an Instr is changed in place, wherever else the object is used.  (M_Bytecode and M_Cfg
    take the elements of a list for values.)
    A store gives for every reference the object; Label, SetLineno, TryBegin and TryEnd are objects
    too, but legalize() does not change them. *)
From Verif Require Import PyBase OpTable M_Instr M_Tables M_Concrete M_Convert M_Bytecode M_Cfg.
Open Scope string_scope.
Open Scope list_scope.
Open Scope Z_scope.

Section Objects.
  Context {A : Type} (view : A -> lview) (set_loc : A -> option loc -> A).
  Definition store : Type := nat -> A.
  Definition put (h : store) (r : nat) (x : A) : store := fun r' => if Nat.eqb r' r then x else h r'.

  (** bytecode.py:149-161 the loop of legalize over the yielded objects: the objects after it and
      the outcome; instr.lineno = ... changes the object in the store *)
  Fixpoint olegalize_loop (v : pyver) (set_line : option Z) (current : Z) (h : store) (l : list nat)
    : store * res unit :=
    match l with
    | [] => (h, Ok tt)
    | r :: l =>
        match view (h r) with
        | VSetLine z => olegalize_loop v (Some z) current h l
        | VOther => olegalize_loop v set_line current h l
        | VInstr lo =>
            match set_line with
            | Some z =>
                match set_lineno v lo (LLine z) with
                | (lo', Err e) => (put h r (set_loc (h r) lo'), Err e)
                | (lo', Ok _) => olegalize_loop v set_line current (put h r (set_loc (h r) lo')) l
                end
            | None =>
                match loc_lineno lo with
                | LUnset =>
                    match set_lineno v lo (LLine current) with
                    | (lo', Err e) => (put h r (set_loc (h r) lo'), Err e)
                    | (lo', Ok _) => olegalize_loop v set_line current (put h r (set_loc (h r) lo')) l
                    end
                | LLine z => olegalize_loop v set_line z h l
                | LNone => olegalize_loop v set_line current h l
                end
            end
        end
    end.

  (** bytecode.py:143-165 legalize: the store and the list after it.  [rest]: the elements the
      iteration did not reach *)
  Definition olegalize (v : pyver) (first_lineno : Z) (h : store) (l rest : list nat) (stop : option exn)
    : store * list nat * res unit :=
    let '(h', o) := olegalize_loop v None first_lineno h l in
    match o, stop with
    | Err e, _ => (h', l ++ rest, Err e)
    | Ok _, Some e => (h', l ++ rest, Err e)
    | Ok _, None => (h', filter (fun r => match view (h' r) with VSetLine _ => false | _ => true end) l, Ok tt)
    end.
End Objects.

(** A Bytecode whose elements are references; what it is in a store *)
Record obytecode : Type := mkOB { ob_meta : meta; ob_argnames : list string; ob_items : list nat }.
Definition contents (h : store) (b : obytecode) : bytecode := mkB (ob_meta b) (ob_argnames b) (map h (ob_items b)).

(** bytecode.py:143-165 Bytecode.legalize().  (Bytecode.__iter__ looks at the classes of the
    elements only, which legalize does not change.) *)
Definition obytecode_legalize (v : pyver) (h : store) (b : obytecode) : store * obytecode * res unit :=
  let '(ys, stop) := iterate false (map h (ob_items b)) in
  let '(h', l, o) := olegalize bview bset_loc v (m_first_lineno (ob_meta b)) h
                       (firstn (length ys) (ob_items b)) (skipn (length ys) (ob_items b)) stop in
  (h', mkOB (ob_meta b) (ob_argnames b) l, o).

(** bytecode.py:137-141 copy() and bytecode.py:129-135 a slice: a new list of the same objects *)
Definition oslice (b : obytecode) (items : list nat) : obytecode := mkOB (copy_attr (ob_meta b)) (ob_argnames b) items.
Definition ocopy (b : obytecode) : obytecode := oslice b (ob_items b).

(** cfg.py:107-131 BasicBlock.legalize on objects *)
Fixpoint oblock_legalize_loop (v : pyver) (T : optable) (set_line : option Z) (current : Z) (h : store) (l : list nat)
  : store * res Z :=
  match l with
  | [] => (h, Ok current)
  | r :: l =>
      match elem_check T (h r) (map h l) with
      | Err e => (h, Err e)
      | Ok _ =>
          match h r with
          | BSet z => oblock_legalize_loop v T (Some z) z h l
          | BI i =>
              match set_line with
              | Some z =>
                  match set_lineno v (i_loc i) (LLine z) with
                  | (lo', Err e) => (put h r (bset_loc (h r) lo'), Err e)
                  | (lo', Ok _) => oblock_legalize_loop v T set_line current (put h r (bset_loc (h r) lo')) l
                  end
              | None =>
                  match loc_lineno (i_loc i) with
                  | LUnset =>
                      match set_lineno v (i_loc i) (LLine current) with
                      | (lo', Err e) => (put h r (bset_loc (h r) lo'), Err e)
                      | (lo', Ok _) => oblock_legalize_loop v T set_line current (put h r (bset_loc (h r) lo')) l
                      end
                  | LLine z => oblock_legalize_loop v T set_line z h l
                  | LNone => oblock_legalize_loop v T set_line current h l
                  end
              end
          | _ => oblock_legalize_loop v T set_line current h l
          end
      end
  end.
Definition oblock_legalize (v : pyver) (T : optable) (first : Z) (h : store) (l : list nat) : store * list nat * res Z :=
  match oblock_legalize_loop v T None first h l with
  | (h', Err e) => (h', l, Err e)
  | (h', Ok c) => (h', filter (fun r => match h' r with BSet _ => false | _ => true end) l, Ok c)
  end.

(** A graph whose blocks are lists of references, and cfg.py:473-477 ControlFlowGraph.legalize() *)
Record oblock : Type := mkOBlk { ok_items : list nat; ok_next : option nat }.
Record ograph : Type := mkOG { og_meta : meta; og_argnames : list string; og_heap : list oblock; og_order : list nat; og_index : list (nat * Z) }.
Definition block_contents (h : store) (b : oblock) : block := mkBlk (map h (ok_items b)) (ok_next b).
Definition graph_contents (h : store) (g : ograph) : cfg :=
  mkG (og_meta g) (og_argnames g) (map (block_contents h) (og_heap g)) (og_order g) (og_index g).
Fixpoint ocfg_legalize_loop (v : pyver) (T : optable) (current : Z) (h : store) (hp : list oblock) (order : list nat)
  : store * list oblock * res unit :=
  match order with
  | [] => (h, hp, Ok tt)
  | n :: r =>
      let b := match nth_error hp n with Some b => b | None => mkOBlk [] None end in
      match oblock_legalize v T current h (ok_items b) with
      | (h', l', Err e) => (h', upd n (mkOBlk l' (ok_next b)) hp, Err e)
      | (h', l', Ok c) => ocfg_legalize_loop v T c h' (upd n (mkOBlk l' (ok_next b)) hp) r
      end
  end.
Definition ocfg_legalize (v : pyver) (T : optable) (h : store) (g : ograph) : store * ograph * res unit :=
  let '(h', hp, o) := ocfg_legalize_loop v T (m_first_lineno (og_meta g)) h (og_heap g) (og_order g) in
  (h', mkOG (og_meta g) (og_argnames g) hp (og_order g) (og_index g), o).
