(** One TryEnd is enough (C27). *)
From Verif Require Import PyBase OpTable Table311 P_Base M_Instr M_Concrete M_Convert M_Bytecode M_Cfg S_Prog S_Cfg P_CfgTo P_CfgOnce T_Cfg T_Cfg2.
Open Scope string_scope.
Open Scope list_scope.
Open Scope Z_scope.

(** C27.  No block of the graph begins by ending the same try block twice, although a jump
    out of the try block, another one, and the end of the try block itself may each ask for a TryEnd. *)
Theorem C27_one_end T b g : proper T (b_items b) -> from_bytecode T b = Ok g ->
  forall n h ks r, nth_error (g_heap g) n = Some h -> k_items h = map BTE ks ++ r -> NoDup ks.
Proof.
  intros PR E n h ks r N K. assert (F := from_once T b g PR E). rewrite Forall_forall in F.
  eapply F; [eapply nth_error_In; exact N|exact K].
Qed.

(** A try block left by two jumps to the place where it ends: the last block has one TryEnd *)
Definition b_exits : bytecode := mkB meta0 []
  [BTB 4 (OLabel 2) false None; nop; instr0 "POP_JUMP_FORWARD_IF_TRUE" 115 (OLabel 3); nop;
   instr0 "POP_JUMP_FORWARD_IF_TRUE" 115 (OLabel 3); nop; BLabel 3; BTE 4; nop; BLabel 2; ret].
Example C27_one_end_ex : proper T311 (b_items b_exits) /\ match from_bytecode T311 b_exits with
  | Ok g => map (fun h => filter is_try (k_items h)) (g_heap g) = [[BTB 0 (OBlock 4) false None]; []; []; [BTE 0]; []]
  | Err _ => False end.
Proof.
  split; [|reflexivity]. constructor; [reflexivity| |].
  - intros it J. cbn in J. decompose [or] J; subst; try contradiction; cbn; eauto; intros; split; discriminate.
  - intros it n J N. cbn in J. decompose [or] J; subst; cbn in N; try contradiction; destruct N as [<-|[]]; cbn; tauto.
Qed.

Print Assumptions C27_one_end.
