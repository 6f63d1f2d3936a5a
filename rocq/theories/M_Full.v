(** Model of the whole conversions: Bytecode.to_code, ConcreteBytecode.to_code,
    ControlFlowGraph.to_code, Bytecode.from_code, compute_stacksize of the three classes
    (src/bytecode/bytecode.py:275-328, concrete.py:849-926, 1475-1513, cfg.py:497-521, 1047-1066). *)
From Verif Require Import PyBase OpTable M_Instr M_Tables M_Concrete M_Convert M_Bytecode M_Cfg M_Stack.
Open Scope string_scope.
Open Scope list_scope.
Open Scope Z_scope.

Section Full.
  Variables (v : pyver) (T : optable) (se : oracle) (keq : pyobj -> pyobj -> bool).

  (** concrete.py:1484-1485 [compute_jumps_passes], None by default *)
  Definition passes_of (p : option nat) : nat := match p with Some n => n | None => default_passes end.

  (** bytecode.py:301-307, concrete.py:1480-1483, 863-870: from a Bytecode to a graph, stack
      size and depths, and back *)
  Definition through_graph (check depths : bool) (b : bytecode) : res (bytecode * Z) :=
    g <- from_bytecode T b ;;
    ' (g, size) <- compute_stacksize v T se check depths g ;;
    b <- cfg_to_bytecode T g ;;
    Ok (b, size).

  (** bytecode.py:318-328, concrete.py:1475-1513 Bytecode.to_concrete_bytecode *)
  Definition to_concrete_bytecode (passes : option nat) (depths : bool) (b : bytecode) : res cbytecode :=
    b <- (if PY311 v && depths then ' (b, _) <- through_graph true true b ;; Ok b else Ok b) ;;
    to_concrete v T keq (passes_of passes) b.

  (** concrete.py:854-926 ConcreteBytecode.to_code.  Before 3.11 the exception table is not
      part of the code object. *)
  Definition concrete_to_code (stacksize : option Z) (check depths : bool) (cb : cbytecode) : res codeobj :=
    ' (cb, size) <-
      match stacksize with
      | Some s =>
          if PY311 v && depths then
            b <- to_bytecode v T cb true false ;;
            ' (b, size) <- through_graph check depths b ;;
            cb <- to_concrete_bytecode None false b ;;
            Ok (cb, size)
          else Ok (cb, s)
      | None =>
          b <- to_bytecode v T cb true false ;;
          ' (b, size) <- through_graph check depths b ;;
          cb <- to_concrete_bytecode None false b ;;
          Ok (cb, size)
      end ;;
    to_code_raw v T cb size.

  (** bytecode.py:291-316 Bytecode.to_code.  [bc.to_code] is called with the default
      check_pre_and_post=True. *)
  Definition bytecode_to_code (passes : option nat) (stacksize : option Z) (check depths : bool)
    (b : bytecode) : res codeobj :=
    ' (b, size, depths) <-
      match stacksize with
      | Some s =>
          if PY311 v && depths then
            ' (b, size) <- through_graph check depths b ;; Ok (b, size, false)
          else Ok (b, s, depths)
      | None => ' (b, size) <- through_graph check depths b ;; Ok (b, size, false)
      end ;;
    cb <- to_concrete_bytecode passes depths b ;;
    concrete_to_code (Some size) true depths cb.

  (** cfg.py:1047-1066 ControlFlowGraph.to_code *)
  Definition cfg_to_code (stacksize : option Z) (check depths : bool) (g : cfg) : res codeobj :=
    ' (g, size) <- match stacksize with
                   | None => compute_stacksize v T se check depths g
                   | Some s => Ok (g, s)
                   end ;;
    b <- cfg_to_bytecode T g ;;
    bytecode_to_code None (Some size) false false b.

  (** bytecode.py:275-285 Bytecode.from_code *)
  Definition bytecode_from_code (prune conserve : bool) (co : codeobj) : res bytecode :=
    cb <- from_code v T co false ;;
    to_bytecode v T cb prune conserve.

  (** bytecode.py:287-289 Bytecode.compute_stacksize; cfg.py:497-501 the default of
      compute_exception_stack_depths is True *)
  Definition bytecode_stacksize (check : bool) (b : bytecode) : res Z :=
    g <- from_bytecode T b ;;
    ' (_, size) <- compute_stacksize v T se check true g ;;
    Ok size.
  (** concrete.py:849-852 ConcreteBytecode.compute_stacksize *)
  Definition concrete_stacksize (check : bool) (cb : cbytecode) : res Z :=
    b <- to_bytecode v T cb true false ;;
    bytecode_stacksize check b.
End Full.
