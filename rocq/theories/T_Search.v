(** Property theorems: the exception table works for CPython's own search (C64). *)
From Verif Require Import PyBase OpTable CPy Table311 TablesEx P_Base M_Instr M_Tables M_Concrete M_Convert S_Args S_Lines S_Asm S_Prog S_Slots S_Dis S_Ident S_Code
  P_Layout P_AsmProps P_Code P_Code2 CPySearch P_Search P_Search2 T_Asm T_Args T_Ident T_Code.
Open Scope string_scope.
Open Scope list_scope.
Open Scope Z_scope.

(** C64.  Any ConcreteBytecode whose entries are in order and disjoint: the bisection ends, never
    reads outside of the table, and finds what reading the entries in order finds. *)
Theorem C64_search_table : forall v T cb stacksize co index,
  PY311 v = true -> to_code_raw v T cb stacksize = Ok co ->
  apart (cb_ex cb) -> Forall small (cb_ex cb) ->
  search (co_exceptiontable co) index = Some (find_handler co index).
Proof.
  intros v T cb st co u P TO AP SM. destruct (entries_ok v T cb co st TO P) as (bs & EB & ->).
  unfold assemble_exception_table in EB. apply bind_ok in EB. destruct EB as (bss & EB & E2). injection E2 as <-.
  unfold find_handler. destruct (entries_ok v T cb co st TO P) as (bs & EB' & ->). unfold assemble_exception_table in EB'. rewrite EB in EB'. injection EB' as <-.
  rewrite (handler_entries _ _ EB _ _ (Nat.le_refl _)). now apply search_entries.
Qed.
Print Assumptions C64_search_table.

(** The table of every Bytecode is such a table.  With [C50_code_runs_program_partial], every
    instruction of the program goes to its handler under the interpreter's own search. *)
Theorem C64_search_program : forall v T keq passes b cb stacksize co index,
  wf_optable v T = true -> all_legal v T b -> all_members v b -> sound_key keq ->
  no_cache (b_items b) -> try_blocks (b_items b) ->
  PY311 v = true -> to_concrete v T keq passes b = Ok cb -> pairs_near v T b (cb_varnames cb) ->
  to_code_raw v T cb stacksize = Ok co ->
  zlen (co_code co) < 2 ^ 31 -> (forall id t la d, In (BTB id t la (Some d)) (b_items b) -> d < 2 ^ 29) ->
  search (co_exceptiontable co) index = Some (find_handler co index).
Proof.
  intros v T keq passes b cb st co u wf HL HM HK NC TB P H HP TO SH SD.
  destruct (to_concrete_assembled v T keq wf passes b cb H) as (vn & K0 & gs0 & Kf & gs & en & A).
  assert (CE : cb_ex cb = en) by apply (P_Ident3.cb_is v T keq _ _ _ _ _ _ _ _ A).
  assert (CC : co_code co = code T (concat gs)).
  { apply (fields v T cb co st (concat gs)); [eapply cb_code; eauto|exact TO|eapply all_sized; eauto]. }
  apply (C64_search_table v T cb st co u P TO); rewrite CE.
  - eapply entries_apart; eauto.
  - eapply entries_small; eauto. now rewrite <- CC.
Qed.
Print Assumptions C64_search_program.

(** Forty try blocks: a table of more than forty bytes, so that the bisection runs. *)
Definition many : list bitem :=
  concat (map (fun k => [BTB k (OLabel 900) (Nat.even k) (Some (Z.of_nat k)); ins "LOAD_CONST" (OInt 5); ins "POP_TOP" OUnset; BTE k; ins "NOP" OUnset]) (seq 0 40)).
Definition ex64 : bytecode := mkB meta0 [] (many ++ [BLabel 900; ins "LOAD_CONST" ONone; ins "RETURN_VALUE" OUnset]).
Example C64_ex : all_legal V311 T311 ex64 /\ all_members V311 ex64 /\ no_cache (b_items ex64) /\ try_blocks (b_items ex64)
  /\ (forall id t la d, In (BTB id t la (Some d)) (b_items ex64) -> d < 2 ^ 29)
  /\ exists cb co, to_concrete V311 T311 keq0 default_passes ex64 = Ok cb /\ pairs_near V311 T311 ex64 (cb_varnames cb)
     /\ to_code_raw V311 T311 cb 100 = Ok co /\ zlen (co_code co) = 244 /\ zlen (co_exceptiontable co) = 226
     /\ map (search (co_exceptiontable co)) [0; 1; 2; 75; 76; 77; 118; 119; 120]
        = [Some (Some (120, 0, true)); Some (Some (120, 0, true)); Some None; Some (Some (120, 25, false)); Some (Some (120, 25, false)); Some None;
           Some (Some (120, 39, false)); Some None; Some None].
Proof.
  split; [apply check_legal_ok; vm_compute; reflexivity|].
  split. { intros i I. assert (X : forallb (fun it => match it with BI i => match i_arg i with OCompare _ | OIntr1 _ | OIntr2 _ => false | _ => true end | _ => true end) (b_items ex64) = true) by (vm_compute; reflexivity).
    rewrite forallb_forall in X. specialize (X _ I). cbv beta iota in X. destruct (i_arg i); try exact Logic.I; discriminate. }
  split. { intros i I E. assert (X : existsb (fun it => is_cache (Some it)) (b_items ex64) = true).
    { apply existsb_exists. exists (BI i). split; [exact I|]. cbn. now apply String.eqb_eq. } vm_compute in X. discriminate. }
  split. { split; [|vm_compute; auto 100]. replace (tb_ids (b_items ex64)) with (seq 0 40) by (vm_compute; reflexivity). apply seq_NoDup. }
  split. { intros id t la d I. assert (X : forallb (fun it => match it with BTB _ _ _ (Some d) => d <? 2 ^ 29 | _ => true end) (b_items ex64) = true) by (vm_compute; reflexivity).
    rewrite forallb_forall in X. specialize (X _ I). cbv beta iota in X. now apply Z.ltb_lt. }
  do 2 eexists. split; [vm_compute; reflexivity|]. split; [intros i n _ D; exfalso; unfold is_dual in D; discriminate D|].
  split; [vm_compute; reflexivity|]. repeat split; vm_compute; reflexivity.
Qed.

(** Nothing sorts the exception table of a ConcreteBytecode: the interpreter does not find the
    handler of an entry that stands after one that starts later; nothing is reported. *)
Theorem C64_unsorted_table_refuted :
  ~ (forall v T cb stacksize co index e,
       PY311 v = true -> to_code_raw v T cb stacksize = Ok co -> In e (cb_ex cb) -> e_start e <= index <= e_stop e ->
       (forall f, In f (cb_ex cb) -> e_start f <= index <= e_stop f -> f = e) -> Forall small (cb_ex cb) ->
       search (co_exceptiontable co) index = Some (Some (e_target e, e_depth e, e_lasti e))).
Proof.
  intros H.
  specialize (H V311 T311 (mkCB meta0 [CI (mkC "NOP" 9 None None None 2); CI (mkC "NOP" 9 None None None 2); CI (mkC "RETURN_VALUE" 83 None None None 2)]
    [] [] [] [mkEx 1 1 2 0 false; mkEx 0 0 2 0 false]) 1).
  match goal with H : forall co index e, _ -> ?r = _ -> _ |- _ => let x := eval vm_compute in r in match x with Ok ?c => specialize (H c 0 (mkEx 0 0 2 0 false)) end end.
  assert (X : search [129; 1; 2; 0; 128; 1; 2; 0] 0 = Some None) by (vm_compute; reflexivity).
  cbn [co_exceptiontable] in H. rewrite X in H. discriminate H.
  - reflexivity.
  - vm_compute. reflexivity.
  - right. now left.
  - cbn. lia.
  - intros f [<-|[<-|[]]]; cbn; [lia|reflexivity].
  - repeat constructor.
Qed.
Print Assumptions C64_unsorted_table_refuted.
