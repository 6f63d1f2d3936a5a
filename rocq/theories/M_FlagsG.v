(** Model of infer_flags on a ControlFlowGraph (src/bytecode/flags.py:64-237 with
    cfg.py:601-646) and of update_flags (bytecode.py:107-109). *)
From Verif Require Import PyBase OpTable CPy M_Instr M_Tables M_Concrete M_Convert M_Bytecode M_Cfg M_Stack M_Flags M_Equal.
Open Scope string_scope.
Open Scope list_scope.
Open Scope Z_scope.

(** What infer_flags sees of an element made by _get_instructions (cfg.py:601-646): a jump is a
    ConcreteInstr, a TryBegin or TryEnd a tuple. *)
Definition fitem_of_gflat (f : gflat) : fitem :=
  match f with
  | GPlain i => FInstr (i_name i) (i_op i) (i_arg i)
  | GJump c => FInstr (c_name c) (c_op c) (c_pyarg c)
  | GSet _ => FPseudo
  | GTB _ _ _ | GTE _ => FTuple
  end.

(** flags.py:96-100 infer_flags on a ControlFlowGraph *)
Definition infer_flags_graph (v : pyver) (T : optable) (g : cfg) (is_async : option bool) : res Z :=
  x <- get_instructions v T g ;;
  let m := g_meta g in
  infer_flags v T false (m_cellvars m) (m_freevars m) (m_flags m) (map fitem_of_gflat x) is_async.

(** bytecode.py:107-109 update_flags: the attributes afterwards *)
Definition set_flags (m : meta) (f : Z) : meta :=
  mkMeta (m_argcount m) (m_posonly m) (m_kwonly m) (m_first_lineno m) (m_name m) (m_qualname m) (m_filename m)
    (m_docstring m) (m_cellvars m) (m_freevars m) f.
Definition update_flags_bytecode (v : pyver) (T : optable) (b : bytecode) (is_async : option bool) : res bytecode :=
  f <- infer_flags_bytecode v T b is_async ;;
  Ok (mkB (set_flags (b_meta b) f) (b_argnames b) (b_items b)).
Definition update_flags_concrete (v : pyver) (T : optable) (cb : cbytecode) (is_async : option bool) : res cbytecode :=
  f <- infer_flags_concrete v T cb is_async ;;
  Ok (mkCB (set_flags (cb_meta cb) f) (cb_items cb) (cb_consts cb) (cb_names cb) (cb_varnames cb) (cb_ex cb)).
Definition update_flags_graph (v : pyver) (T : optable) (g : cfg) (is_async : option bool) : res cfg :=
  f <- infer_flags_graph v T g is_async ;;
  Ok (mkG (set_flags (g_meta g) f) (g_argnames g) (g_heap g) (g_order g) (g_index g)).
