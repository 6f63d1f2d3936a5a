(** Model of the comparisons of ConcreteBytecode and ControlFlowGraph, and of [!=]
    (src/bytecode/bytecode.py:66-95, concrete.py:308-322, cfg.py:599-661); copies and slices of
    blocks (cfg.py:87-93, 102-105).

    [==] of two bytecodes calls compute_stacksize() of both, which may raise; on a graph it also
    writes the stack depth of its TryBegins, so that the graphs after the comparison are part of
    the result.  The two operands are supposed to be different objects sharing no block. *)
From Verif Require Import PyBase OpTable M_Instr M_Tables M_Concrete M_Convert M_Bytecode M_Cfg M_Stack M_Full.
Open Scope string_scope.
Open Scope list_scope.
Open Scope Z_scope.

(** bytecode.py:70-91 the attributes compared by BaseBytecode.__eq__ (the docstring is a str,
    None or UNSET) *)
Definition attributes_eqb (m n : meta) : bool :=
  (m_argcount m =? m_argcount n) && (m_posonly m =? m_posonly n) && (m_kwonly m =? m_kwonly n)
  && (m_flags m =? m_flags n) && (m_first_lineno m =? m_first_lineno n)
  && String.eqb (m_filename m) (m_filename n) && String.eqb (m_name m) (m_name n)
  && String.eqb (m_qualname m) (m_qualname n) && py_eq (m_docstring m) (m_docstring n)
  && list_eqb String.eqb (m_cellvars m) (m_cellvars n) && list_eqb String.eqb (m_freevars m) (m_freevars n).

(** ** Graphs *)

(** Elements of the list built by _get_instructions *)
Inductive gflat : Type :=
| GPlain (i : instr)
| GJump (c : cinstr)
| GSet (z : Z)
| GTB (n : nat) (target : Z) (lasti : bool)
| GTE (n : nat).

Section Equal.
  Variables (v : pyver) (T : optable) (se : oracle) (keq : pyobj -> pyobj -> bool).

  (** cfg.py:608-644 the loop over the elements of a block.  [tbs]: try_begins.  The checks are
      those of BasicBlock.__iter__. *)
  Fixpoint block_flat (g : cfg) (tbs : list (nat * nat)) (l : list bitem) : res (list gflat * list (nat * nat)) :=
    match l with
    | [] => Ok ([], tbs)
    | it :: r =>
        _ <- elem_check T it r ;;
        match it with
        | BTB id t la _ =>
            let tbs := if dmem Nat.eqb tbs id then tbs else dset Nat.eqb tbs id (length tbs) in
            k <- of_option KeyError (dget Nat.eqb tbs id) ;;
            n <- match t with OBlock n => Ok n | _ => Err AssertionError end ;;
            x <- get_block_index g n ;;
            ' (out, tbs) <- block_flat g tbs r ;;
            Ok (GTB k x la :: out, tbs)
        | BTE id =>
            k <- of_option KeyError (dget Nat.eqb tbs id) ;;
            ' (out, tbs) <- block_flat g tbs r ;;
            Ok (GTE k :: out, tbs)
        | BI i =>
            if has_jump T i || is_final i then
              f <- (if has_jump T i then
                      n <- match i_arg i with OBlock n => Ok n | _ => Err AssertionError end ;;
                      x <- get_block_index g n ;;
                      c <- new_cinstr v T (i_name i) (OInt x) (i_loc i) None ;;
                      Ok (GJump c)
                    else Ok (GPlain i)) ;;
              te <- match trailing_end r with
                    | Some id => k <- of_option KeyError (dget Nat.eqb tbs id) ;; Ok [GTE k]
                    | None => Ok []
                    end ;;
              Ok (f :: te, tbs)
            else
              ' (out, tbs) <- block_flat g tbs r ;;
              Ok (GPlain i :: out, tbs)
        | BSet z =>
            ' (out, tbs) <- block_flat g tbs r ;;
            Ok (GSet z :: out, tbs)
        | BLabel _ => Err ValueError
        end
    end.

  (** cfg.py:607 the loop over the blocks *)
  Fixpoint blocks_flat (g : cfg) (tbs : list (nat * nat)) (order : list nat) : res (list gflat) :=
    match order with
    | [] => Ok []
    | n :: r =>
        ' (out, tbs) <- block_flat g tbs (k_items (blk g n)) ;;
        rest <- blocks_flat g tbs r ;;
        Ok (out ++ rest)
    end.

  (** cfg.py:601-646 _get_instructions *)
  Definition get_instructions (g : cfg) : res (list gflat) := blocks_flat g [] (g_order g).

  Definition gflat_eqb (a b : gflat) : bool :=
    match a, b with
    | GPlain i, GPlain j => instr_eqb T keq i j
    | GJump c, GJump d => cinstr_eqb c d
    | GSet z, GSet w => z =? w
    | GTB n t la, GTB m u lb => Nat.eqb n m && (t =? u) && Bool.eqb la lb
    | GTE n, GTE m => Nat.eqb n m
    | _, _ => false
    end.

  (** cfg.py:648-661 __eq__, bytecode.py:66-95: the answer and the graphs afterwards *)
  Definition cfg_eq (g h : cfg) : res (bool * cfg * cfg) :=
    if negb (list_eqb String.eqb (g_argnames g) (g_argnames h)) then Ok (false, g, h) else
    x <- get_instructions g ;;
    y <- get_instructions h ;;
    if negb (list_eqb gflat_eqb x y) then Ok (false, g, h) else
    if negb (attributes_eqb (g_meta g) (g_meta h)) then Ok (false, g, h) else
    ' (g', s) <- compute_stacksize v T se true true g ;;
    ' (h', t) <- compute_stacksize v T se true true h ;;
    Ok (s =? t, g', h').

  (** object.__ne__: the negation of == *)
  Definition cfg_ne (g h : cfg) : res bool := ' (r, _, _) <- cfg_eq g h ;; Ok (negb r).

  (** ** ConcreteBytecode *)

  (** concrete.py:308-322 __eq__, bytecode.py:66-95.  _BaseBytecodeList has no __eq__ of its own,
      and BaseBytecode comes before list. *)
  Definition concrete_eq (a b : cbytecode) : res bool :=
    if negb (list_eqb keq (cb_consts a) (cb_consts b)) then Ok false else
    if negb (list_eqb String.eqb (cb_names a) (cb_names b)) then Ok false else
    if negb (list_eqb String.eqb (cb_varnames a) (cb_varnames b)) then Ok false else
    if negb (attributes_eqb (cb_meta a) (cb_meta b)) then Ok false else
    s <- concrete_stacksize v T se true a ;;
    t <- concrete_stacksize v T se true b ;;
    Ok (s =? t).

  Definition citem_eqb (x y : citem) : bool :=
    match x, y with CI c, CI d => cinstr_eqb c d | CSet z, CSet w => z =? w | _, _ => false end.

  (** bytecode.py:120 _BaseBytecodeList: [!=] is list.__ne__, the only __ne__ before that of
      object; it compares the elements *)
  Definition concrete_ne (a b : cbytecode) : bool := negb (list_eqb citem_eqb (cb_items a) (cb_items b)).

  (** ** Bytecode *)

  (** Elements of a Bytecode: labels, TryBegins and TryEnds are compared by identity.
      Simplification: a TryEnd is known by its TryBegin, two TryEnds of one TryBegin are taken for
      one object. *)
  Definition bitem_eqb (x y : bitem) : bool :=
    match x, y with
    | BI i, BI j => instr_eqb T keq i j
    | BLabel n, BLabel m => Nat.eqb n m
    | BSet z, BSet w => z =? w
    | BTB a _ _ _, BTB b _ _ _ => Nat.eqb a b
    | BTE a, BTE b => Nat.eqb a b
    | _, _ => false
    end.

  (** bytecode.py:180, 235 [!=] of two Bytecodes: list.__ne__ *)
  Definition bytecode_ne (a b : bytecode) : bool := negb (list_eqb bitem_eqb (b_items a) (b_items b)).
End Equal.

(** ** Copies and slices of blocks *)

(** cfg.py:87-93 block[slice], [items] being the elements selected by the slice, and 102-105
    copy().  BasicBlock.__init__ takes them from the list, without its checks. *)
Definition block_slice (b : block) (items : list bitem) : block := mkBlk items (k_next b).
Definition block_copy (b : block) : block := block_slice b (k_items b).
