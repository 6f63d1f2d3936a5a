-Q theories Verif
theories/PyBase.v
theories/OpTable.v
theories/Table311.v
theories/CPy.v
theories/M_Instr.v
theories/M_Tables.v
theories/M_Concrete.v
theories/S_Args.v
theories/P_Base.v
theories/P_OpTable.v
theories/P_Asm.v
theories/P_Instr.v
theories/P_Instr2.v
theories/T_Instr.v
theories/P_Except.v
theories/T_Except.v
theories/TablesEx.v
theories/P_Lines.v
theories/P_Locs.v
theories/S_Lines.v
theories/P_LinesCode.v
theories/T_Lines.v
theories/M_Convert.v
theories/P_Conv.v
theories/P_Conv2.v
theories/S_Asm.v
theories/P_Jumps.v
theories/P_Jumps2.v
theories/P_Layout.v
theories/P_Layout2.v
theories/P_Try.v
theories/P_Converge.v
theories/P_AsmProps.v
theories/T_Asm.v
theories/S_Slots.v
theories/P_Cat.v
theories/P_Args.v
theories/P_Args2.v
theories/P_Decode.v
theories/P_Tables.v
theories/T_Args.v
theories/M_Flags.v
theories/S_Flags.v
theories/P_Flags.v
theories/P_Flags2.v
theories/T_Flags.v
theories/S_Prog.v
theories/M_Bytecode.v
theories/S_Legal.v
theories/S_Eq.v
theories/P_Bytecode.v
theories/P_Eq.v
theories/P_Eq2.v
theories/T_Bytecode.v
theories/M_Cfg.v
theories/S_Cfg.v
theories/P_Cfg.v
theories/P_Cfg2.v
theories/T_Cfg.v
theories/P_CfgSeq.v
theories/P_CfgFrom.v
theories/P_CfgFrom2.v
theories/P_CfgFrom3.v
theories/P_CfgFrom4.v
theories/P_CfgTo.v
theories/P_CfgTo2.v
theories/P_CfgTo3.v
theories/T_Cfg2.v
theories/M_Stack.v
theories/S_Stack.v
theories/P_Stack.v
theories/P_StackL.v
theories/P_Stack2.v
theories/P_Stack3.v
theories/P_Stack4.v
theories/P_Effect.v
theories/CPyEffect.v
theories/P_StackEx.v
theories/P_StackFuel.v
theories/P_StackGrow.v
theories/T_Stack.v
theories/S_Round.v
theories/P_Round.v
theories/P_Round2.v
theories/P_Round3.v
theories/T_Round.v
theories/S_Dis.v
theories/P_Dis.v
theories/P_Dis2.v
theories/P_Dis3.v
theories/P_Dis4.v
theories/P_Dis5.v
theories/P_Dis6.v
theories/T_Dis.v
theories/S_Ident.v
theories/P_Ident.v
theories/P_Ident2.v
theories/P_Ident3.v
theories/T_Ident.v
theories/T_Meta.v
theories/S_Code.v
theories/P_Code.v
theories/P_Code2.v
theories/T_Code.v
theories/M_Full.v
theories/P_Full.v
theories/T_Full.v
theories/P_From.v
theories/P_From2.v
theories/T_From.v
theories/S_Run.v
theories/P_Run.v
theories/P_Run2.v
theories/P_Effect2.v
theories/P_RunEx.v
theories/T_Run.v
theories/S_Total.v
theories/P_Total.v
theories/P_Total2.v
theories/P_Total3.v
theories/P_Total4.v
theories/T_Total.v
theories/P_Total5.v
theories/T_Total2.v
theories/S_From.v
theories/P_Total6.v
theories/P_Total7.v
theories/T_Total3.v
theories/S_Old.v
theories/P_Old.v
theories/P_Old2.v
theories/T_Old.v
theories/P_Old3.v
theories/P_Old4.v
theories/T_Old2.v
theories/M_Equal.v
theories/S_Equal.v
theories/P_Equal.v
theories/P_Equal2.v
theories/T_Equal.v
theories/M_FlagsG.v
theories/P_FlagsG.v
theories/T_FlagsG.v
theories/S_Flow.v
theories/T_Flow.v
theories/PyText.v
theories/M_Format.v
theories/S_Format.v
theories/P_Format.v
theories/P_Format2.v
theories/T_Format.v
theories/S_Effect.v
theories/P_Effect3.v
theories/T_Effect.v
theories/CPySearch.v
theories/P_Search.v
theories/P_Search2.v
theories/T_Search.v
theories/T_Size.v
theories/S_Steady.v
theories/P_Steady.v
theories/P_Steady2.v
theories/P_Steady3.v
theories/P_Steady4.v
theories/T_Legal.v
theories/P_CfgOnce.v
theories/T_Cfg3.v
theories/T_Flags3.v
theories/T_AsIs.v
theories/P_Only.v
theories/P_Only2.v
theories/T_Only.v
theories/P_Again.v
theories/T_Again.v
theories/P_CfgTo4.v
theories/T_Depths.v
theories/M_Objects.v
theories/P_Objects.v
theories/T_Objects.v
theories/P_DisDepth.v
theories/T_Handler.v
theories/T_Cfg4.v
theories/T_Default.v
theories/S_Written.v
theories/P_Written.v
theories/P_Written2.v
theories/T_Written.v
theories/P_Proper.v
theories/T_Rewrite.v
theories/P_Moved.v
theories/T_Stable.v
theories/P_Written3.v
theories/T_Written2.v
theories/T_Stable2.v
theories/M_Atomic.v
theories/P_Atomic.v
theories/P_Atomic2.v
theories/T_Atomic.v
theories/S_List.v
theories/P_List.v
theories/P_List2.v
theories/P_List3.v
theories/T_List.v
theories/M_Alias.v
theories/S_Alias.v
theories/P_Alias.v
theories/T_Alias.v
theories/P_Same.v
theories/T_Same.v
