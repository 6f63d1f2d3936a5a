(** Model of src/bytecode/bytecode.py: iteration, legalize, copies and comparison of
    instruction lists.  (The attributes and the element types are in M_Concrete.)
    Instructions are values here; for a list in which the same Instr object occurs twice,
    legalize() behaves differently: see M_Objects. *)
From Verif Require Import PyBase OpTable M_Instr M_Tables M_Concrete M_Convert.
Open Scope string_scope.
Open Scope list_scope.
Open Scope Z_scope.

(** bytecode.py:249-260 Bytecode.__iter__: the elements yielded, and the exception that
    ends the iteration if any.  (_check_instr cannot fail, by typing.) *)
Fixpoint iterate (seen : bool) (l : list bitem) : list bitem * option exn :=
  match l with
  | [] => ([], None)
  | it :: r =>
      match iter_check seen it with
      | Err e => ([], Some e)
      | Ok seen' => let '(ys, e) := iterate seen' r in (it :: ys, e)
      end
  end.

(** ** legalize *)

(** What legalize looks at in an element *)
Inductive lview : Type := VSetLine (z : Z) | VInstr (l : option loc) | VOther.

Section Legalize.
  Context {A : Type} (view : A -> lview) (set_loc : A -> option loc -> A).

  (** bytecode.py:149-161 the loop of legalize, over the yielded elements: the elements
      after the loop, and the outcome.  [set_line] is set_lineno. *)
  Fixpoint legalize_loop (v : pyver) (set_line : option Z) (current : Z) (l : list A)
    : list A * res unit :=
    match l with
    | [] => ([], Ok tt)
    | x :: r =>
        match view x with
        | VSetLine z => let '(r', o) := legalize_loop v (Some z) current r in (x :: r', o)
        | VOther => let '(r', o) := legalize_loop v set_line current r in (x :: r', o)
        | VInstr lo =>
            match set_line with
            | Some z =>
                match set_lineno v lo (LLine z) with
                | (lo', Err e) => (set_loc x lo' :: r, Err e)
                | (lo', Ok _) => let '(r', o) := legalize_loop v set_line current r in
                                 (set_loc x lo' :: r', o)
                end
            | None =>
                match loc_lineno lo with
                | LUnset =>
                    match set_lineno v lo (LLine current) with
                    | (lo', Err e) => (set_loc x lo' :: r, Err e)
                    | (lo', Ok _) => let '(r', o) := legalize_loop v set_line current r in
                                     (set_loc x lo' :: r', o)
                    end
                | LLine z => let '(r', o) := legalize_loop v set_line z r in (x :: r', o)
                | LNone => let '(r', o) := legalize_loop v set_line current r in (x :: r', o)
                end
            end
        end
    end.

  (** bytecode.py:143-165 legalize; [stop] is the exception raised by the iterator after
      the elements [l] were yielded, [rest] the elements it did not reach *)
  Definition legalize (v : pyver) (first_lineno : Z) (l rest : list A) (stop : option exn)
    : list A * res unit :=
    let '(l', o) := legalize_loop v None first_lineno l in
    match o, stop with
    | Err e, _ => (l' ++ rest, Err e)
    | Ok _, Some e => (l' ++ rest, Err e)
    | Ok _, None =>
        (filter (fun x => match view x with VSetLine _ => false | _ => true end) l', Ok tt)
    end.
End Legalize.

Definition bview (it : bitem) : lview :=
  match it with BSet z => VSetLine z | BI i => VInstr (i_loc i) | _ => VOther end.
Definition bset_loc (it : bitem) (lo : option loc) : bitem :=
  match it with BI i => BI (mkInstr (i_name i) (i_op i) (i_arg i) lo) | _ => it end.
Definition cview (it : citem) : lview :=
  match it with CSet z => VSetLine z | CI c => VInstr (c_loc c) end.
Definition cset_loc (it : citem) (lo : option loc) : citem :=
  match it with CI c => CI (mkC (c_name c) (c_op c) (c_arg c) lo (c_ext c) (c_size c)) | _ => it end.

(** bytecode.py:143-165 Bytecode.legalize(): the object after the call, and the outcome *)
Definition bytecode_legalize (v : pyver) (b : bytecode) : bytecode * res unit :=
  let '(ys, stop) := iterate false (b_items b) in
  let '(l, o) := legalize bview bset_loc v (m_first_lineno (b_meta b)) ys
                   (skipn (length ys) (b_items b)) stop in
  (mkB (b_meta b) (b_argnames b) l, o).

(** bytecode.py:143-165 ConcreteBytecode.legalize() *)
Definition concrete_legalize (v : pyver) (cb : cbytecode) : cbytecode * res unit :=
  let '(l, o) := legalize cview cset_loc v (m_first_lineno (cb_meta cb)) (cb_items cb) [] None in
  (mkCB (cb_meta cb) l (cb_consts cb) (cb_names cb) (cb_varnames cb) (cb_ex cb), o).

(** ** Copies and slices *)

(** bytecode.py:53-64 BaseBytecode._copy_attr_from: all the attributes *)
Definition copy_attr (m : meta) : meta :=
  mkMeta (m_argcount m) (m_posonly m) (m_kwonly m) (m_first_lineno m) (m_name m)
    (m_qualname m) (m_filename m) (m_docstring m) (m_cellvars m) (m_freevars m) (m_flags m).

(** bytecode.py:129-141, 239-247, 270-273: Bytecode.copy(), and b[slice] where [items] are
    the elements selected by the slice.  (The list argnames is shared, not copied.) *)
Definition bytecode_slice (b : bytecode) (items : list bitem) : bytecode :=
  mkB (copy_attr (b_meta b)) (b_argnames b) items.
Definition bytecode_copy (b : bytecode) : bytecode := bytecode_slice b (b_items b).

(** bytecode.py:129-141, concrete.py:266-282, 298-303: ConcreteBytecode.copy() and slices.
    The exception table is not copied. *)
Definition concrete_slice (cb : cbytecode) (items : list citem) : cbytecode :=
  mkCB (copy_attr (cb_meta cb)) items (cb_consts cb) (cb_names cb) (cb_varnames cb) [].
Definition concrete_copy (cb : cbytecode) : cbytecode := concrete_slice cb (cb_items cb).

(** ** Comparison *)

(** Python's == on arguments: bool and IntEnum members are ints; labels, blocks and
    unknown objects compare by identity (instr.py:169, 249). *)
Fixpoint py_eq (a b : pyobj) {struct a} : bool :=
  match a, b with
  | ONone, ONone => true
  | OUnset, OUnset => true
  | OStr s, OStr t => String.eqb s t
  | OTuple l, OTuple m =>
      (fix go (l m : list pyobj) : bool :=
         match l, m with
         | [], [] => true
         | x :: l', y :: m' => py_eq x y && go l' m'
         | _, _ => false
         end) l m
  | OLabel n, OLabel m => Nat.eqb n m
  | OBlock n, OBlock m => Nat.eqb n m
  | OCell s, OCell t => String.eqb s t
  | OFree s, OFree t => String.eqb s t
  | OOther t n, OOther u m => Nat.eqb t u && Nat.eqb n m
  | _, _ => match as_int a, as_int b with Some x, Some y => x =? y | _, _ => false end
  end.

Definition oz_eqb (a b : option Z) : bool :=
  match a, b with Some x, Some y => x =? y | None, None => true | _, _ => false end.

(** InstrLocation is a dataclass: equal fields (instr.py:426-427) *)
Definition loc_eqb (a b : loc) : bool :=
  oz_eqb (l_lineno a) (l_lineno b) && oz_eqb (l_end_lineno a) (l_end_lineno b)
  && oz_eqb (l_col a) (l_col b) && oz_eqb (l_end_col a) (l_end_col b).
Definition oloc_eqb (a b : option loc) : bool :=
  match a, b with Some x, Some y => loc_eqb x y | None, None => true | _, _ => false end.

(** instr.py:749-752, 814-818 Instr.__eq__ *)
Definition instr_eqb (T : optable) (keq : pyobj -> pyobj -> bool) (i j : instr) : bool :=
  oloc_eqb (i_loc i) (i_loc j) && String.eqb (i_name i) (i_name j)
  && (if z_mem (i_op i) (t_hasconst T)
      then z_mem (i_op j) (t_hasconst T) && keq (i_arg i) (i_arg j)
      else negb (z_mem (i_op j) (t_hasconst T)) && py_eq (i_arg i) (i_arg j)).

(** instr.py:749-752, concrete.py:136-137 ConcreteInstr.__eq__ *)
Definition cinstr_eqb (i j : cinstr) : bool :=
  oloc_eqb (c_loc i) (c_loc j) && String.eqb (c_name i) (c_name j) && oz_eqb (c_arg i) (c_arg j).

(** Elements of the list built by _flat (bytecode.py:183-226).  [FJump]: a ConcreteInstr
    whose argument is the target.  The label of FJump0 / FTB0 is still to be resolved. *)
Inductive flat0 : Type :=
| FLabel (index : nat)
| FTB0 (n : nat) (label : nat) (lasti : bool)
| FTE (n : nat)
| FPlain (i : instr)
| FJump0 (label : nat) (c : cinstr)
| FSet (z : Z)
| FTB (n : nat) (target : nat) (lasti : bool)
| FJump (c : cinstr).

(** bytecode.py:190-211 the loop of _flat.  [seen]: variable of Bytecode.__iter__. *)
Fixpoint flat_loop (v : pyver) (T : optable) (seen : bool) (index offset : nat)
  (tbs : list (nat * nat)) (labels : list (nat * nat)) (l : list bitem)
  : res (list flat0 * list (nat * nat)) :=
  match l with
  | [] => Ok ([], labels)
  | it :: r =>
      seen <- iter_check seen it ;;
      match it with
      | BLabel n =>
          ' (out, labels) <- flat_loop v T seen (S index) offset tbs (dset Nat.eqb labels n offset) r ;;
          Ok (FLabel index :: out, labels)
      | BTB id t la _ =>
          let tbs := if dmem Nat.eqb tbs id then tbs else dset Nat.eqb tbs id (length tbs) in
          k <- of_option KeyError (dget Nat.eqb tbs id) ;;
          n <- match t with OLabel n => Ok n | _ => Err AssertionError end ;;
          ' (out, labels) <- flat_loop v T seen (S index) offset tbs labels r ;;
          Ok (FTB0 k n la :: out, labels)
      | BTE id =>
          k <- of_option KeyError (dget Nat.eqb tbs id) ;;
          ' (out, labels) <- flat_loop v T seen (S index) offset tbs labels r ;;
          Ok (FTE k :: out, labels)
      | BSet z =>
          ' (out, labels) <- flat_loop v T seen (S index) (S offset) tbs labels r ;;
          Ok (FSet z :: out, labels)
      | BI i =>
          f <- match i_arg i with
               | OLabel n => c <- new_cinstr v T (i_name i) (OInt 0) (i_loc i) None ;; Ok (FJump0 n c)
               | _ => Ok (FPlain i)
               end ;;
          ' (out, labels) <- flat_loop v T seen (S index) (S offset) tbs labels r ;;
          Ok (f :: out, labels)
      end
  end.

(** bytecode.py:213-214 *)
Definition flat_jump (v : pyver) (T : optable) (labels : list (nat * nat)) (f : flat0) : res flat0 :=
  match f with
  | FJump0 n c => k <- of_option KeyError (dget Nat.eqb labels n) ;;
                  c <- set_arg v T c (Z.of_nat k) ;; Ok (FJump c)
  | _ => Ok f
  end.
(** bytecode.py:216-224 *)
Definition flat_try (labels : list (nat * nat)) (f : flat0) : res flat0 :=
  match f with
  | FTB0 k n la => t <- of_option KeyError (dget Nat.eqb labels n) ;; Ok (FTB k t la)
  | _ => Ok f
  end.

(** bytecode.py:183-226 _flat *)
Definition flat (v : pyver) (T : optable) (l : list bitem) : res (list flat0) :=
  ' (out, labels) <- flat_loop v T false 0 0 [] [] l ;;
  out <- mapM (flat_jump v T labels) out ;;
  mapM (flat_try labels) out.

Definition flat_eqb (T : optable) (keq : pyobj -> pyobj -> bool) (a b : flat0) : bool :=
  match a, b with
  | FLabel i, FLabel j => Nat.eqb i j
  | FTE n, FTE m => Nat.eqb n m
  | FPlain i, FPlain j => instr_eqb T keq i j
  | FSet z, FSet w => z =? w
  | FTB n t la, FTB m u lb => Nat.eqb n m && Nat.eqb t u && Bool.eqb la lb
  | FJump c, FJump d => cinstr_eqb c d
  | _, _ => false
  end.

Fixpoint list_eqb {A} (eqb : A -> A -> bool) (l m : list A) : bool :=
  match l, m with
  | [], [] => true
  | x :: l', y :: m' => eqb x y && list_eqb eqb l' m'
  | _, _ => false
  end.

(** bytecode.py:228-232 __eq__ of two Bytecode *)
Definition bytecode_eq (v : pyver) (T : optable) (keq : pyobj -> pyobj -> bool) (a b : bytecode)
  : res bool :=
  x <- flat v T (b_items a) ;;
  y <- flat v T (b_items b) ;;
  Ok (list_eqb (flat_eqb T keq) x y).
