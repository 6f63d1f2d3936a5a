(** Sequences of elements: what an instruction sequence with try blocks means, and what can
    be changed in it without changing its meaning. *)
From Verif Require Import PyBase OpTable P_Base M_Instr M_Concrete M_Bytecode M_Cfg S_Prog S_Cfg P_Cfg.
Open Scope list_scope.
Open Scope Z_scope.

Section W.
  Context (f : pyobj -> parg).
  Fixpoint wg (o : option handler) (l : list bitem) : list pitem :=
    match l with
    | [] => []
    | BI i :: r => PInstr (i_name i) (f (i_arg i)) (i_loc i) o :: wg o r
    | BSet z :: r => PSet z :: wg o r
    | BLabel _ :: r => wg o r
    | BTB _ t la _ :: r => wg (Some (f t, la)) r
    | BTE _ :: r => wg None r
    end.
  Fixpoint og (o : option handler) (l : list bitem) : option handler :=
    match l with
    | [] => o
    | BTB _ t la _ :: r => og (Some (f t, la)) r
    | BTE _ :: r => og None r
    | _ :: r => og o r
    end.
  Lemma wg_app l1 l2 : forall o, wg o (l1 ++ l2) = wg o l1 ++ wg (og o l1) l2.
  Proof. induction l1 as [|x r IH]; intros o; [reflexivity|]. destruct x; cbn; rewrite ?IH; reflexivity. Qed.
  Lemma og_app l1 l2 : forall o, og o (l1 ++ l2) = og (og o l1) l2.
  Proof. induction l1 as [|x r IH]; intros o; [reflexivity|]. destruct x; cbn; auto. Qed.
End W.

Lemma wg_walk p l : forall o, wg (arg_of p) o l = walk p o l.
Proof. induction l as [|x r IH]; intros o; [reflexivity|]. destruct x; cbn; rewrite ?IH; reflexivity. Qed.

Lemma wg_ext f f' l : (forall i, In (BI i) l -> f (i_arg i) = f' (i_arg i)) ->
  (forall id t la d, In (BTB id t la d) l -> f t = f' t) -> forall o, wg f o l = wg f' o l.
Proof.
  induction l as [|x r IH]; intros H1 H2 o; [reflexivity|].
  assert (E : forall o, wg f o r = wg f' o r).
  { apply IH; intros; [apply H1|eapply H2]; right; eassumption. }
  destruct x as [i|n|z|id t la d|id]; cbn; rewrite ?E; try reflexivity.
  - now rewrite (H1 i (or_introl eq_refl)).
  - now rewrite (H2 id t la d (or_introl eq_refl)).
Qed.

(** TryEnd of a try block that was already ended *)
Fixpoint dd (seen : list nat) (l : list bitem) : list bitem :=
  match l with
  | [] => []
  | BTE k :: r => if nat_mem k seen then dd seen r else BTE k :: dd (k :: seen) r
  | x :: r => x :: dd seen r
  end.

(** State after a paired sequence *)
Fixpoint pst (op : option nat) (opened : list nat) (l : list bitem) : option nat * list nat :=
  match l with
  | [] => (op, opened)
  | BTB id _ _ _ :: r => pst (Some id) (id :: opened) r
  | BTE id :: r => pst None opened r
  | _ :: r => pst op opened r
  end.

Lemma paired_app a b : forall op opened, paired op opened (a ++ b) =
  paired op opened a && paired (fst (pst op opened a)) (snd (pst op opened a)) b.
Proof.
  induction a as [|x r IH]; intros op opened; [reflexivity|].
  destruct x; cbn; rewrite ?IH, ?andb_assoc; auto.
Qed.
Lemma pst_app a b : forall op opened, pst op opened (a ++ b) = pst (fst (pst op opened a)) (snd (pst op opened a)) b.
Proof. induction a as [|x r IH]; intros op opened; [reflexivity|]. destruct x; cbn; auto. Qed.

Lemma pst_opened l : forall op opened n, In n opened -> In n (snd (pst op opened l)).
Proof. induction l as [|x r IH]; intros op opened n J; [exact J|]. destruct x; cbn; apply IH; auto. now right. Qed.
Lemma pst_open_in l : forall op opened n, (forall m, op = Some m -> In m opened) -> fst (pst op opened l) = Some n -> In n (snd (pst op opened l)).
Proof.
  induction l as [|x r IH]; intros op opened n H; cbn; [apply H|].
  destruct x; cbn; apply IH; auto; try discriminate. intros m E. injection E as <-. now left.
Qed.
Lemma pst_ids l : forall op opened n, In n (snd (pst op opened l)) <-> In n opened \/ exists t la d, In (BTB n t la d) l.
Proof.
  induction l as [|x r IH]; intros op opened n; cbn.
  { split; [auto|]. intros [J|(t & la & d & [])]. exact J. }
  destruct x as [i|m|z|id t la d|id]; cbn; rewrite IH.
  4:{ split.
      - intros [[->|J]|(t' & la' & d' & J)]; [right; exists t, la, d; now left|now left|right; exists t', la', d'; now right].
      - intros [J|(t' & la' & d' & [E|J])]; [left; now right|injection E as -> _ _ _; left; now left|right; eauto]. }
  all: split; (intros [J|(t' & la' & d' & J)]; [now left|right; exists t', la', d']; try (destruct J as [J|J]; [discriminate|]); auto).
Qed.

(** A try block that was opened and ended is never open again. *)
Lemma paired_closed l : forall op opened n, In n opened -> op <> Some n -> paired op opened l = true ->
  fst (pst op opened l) <> Some n /\ ~ In (BTE n) l.
Proof.
  induction l as [|x r IH]; intros op opened n J O P; cbn in *; [auto|].
  destruct x as [i|m|z|id t la d|id]; cbn in *.
  - destruct (IH op opened n J O P) as [A B]. split; [exact A|]. intros [E|E]; [discriminate|auto].
  - destruct (IH op opened n J O P) as [A B]. split; [exact A|]. intros [E|E]; [discriminate|auto].
  - destruct (IH op opened n J O P) as [A B]. split; [exact A|]. intros [E|E]; [discriminate|auto].
  - apply andb_true_iff in P. destruct P as [P1 P]. apply andb_true_iff in P1. destruct P1 as [_ P1].
    apply negb_true_iff in P1. destruct (IH (Some id) (id :: opened) n) as [A B]; auto.
    + now right. + intros E. injection E as ->. apply nat_mem_In in J. congruence.
    + split; [exact A|]. intros [E|E]; [discriminate|auto].
  - apply andb_true_iff in P. destruct P as [P1 P]. destruct (IH None opened n) as [A B]; auto; [discriminate|].
    split; [exact A|]. intros [E|E]; [|auto]. injection E as ->. destruct op as [m|]; [|discriminate].
    apply Nat.eqb_eq in P1. congruence.
Qed.

(** In a paired sequence no TryEnd is repeated. *)
Lemma dd_paired l : forall seen op opened, (forall n, In n seen -> In n opened /\ op <> Some n) ->
  (forall n, op = Some n -> In n opened) ->
  paired op opened l = true -> dd seen l = l.
Proof.
  induction l as [|x r IH]; intros seen op opened S O P; [reflexivity|].
  destruct x as [i|m|z|id t la d|id]; cbn in *; try (f_equal; eapply IH; eauto; fail).
  - f_equal. apply andb_true_iff in P. destruct P as [P1 P]. apply andb_true_iff in P1. destruct P1 as [_ P1].
    apply negb_true_iff in P1. apply (IH seen (Some id) (id :: opened)); [| |exact P].
    + intros n J. destruct (S n J) as [A B]. split; [now right|]. intros E. injection E as ->.
      apply nat_mem_In in A. congruence.
    + intros n E. injection E as <-. now left.
  - apply andb_true_iff in P. destruct P as [P1 P]. destruct op as [k|]; [|discriminate]. apply Nat.eqb_eq in P1. subst id.
    destruct (nat_mem k seen) eqn:M; [apply nat_mem_In in M; destruct (S k M); congruence|].
    f_equal. apply (IH (k :: seen) None opened); [| |exact P].
    + intros n [<-|J]; [split; [now apply O|discriminate]|]. destruct (S n J). split; [auto|discriminate].
    + discriminate.
Qed.

Lemma dd_app a b : forall seen, dd seen (a ++ b) = dd seen a ++ dd (flat_map (fun x => match x with BTE k => [k] | _ => [] end) (rev a) ++ seen) b.
Proof.
  intros seen.
  assert (X : forall b s s', (forall n, In n s <-> In n s') -> dd s b = dd s' b).
  { clear. induction b as [|x r IH]; intros s s' E; [reflexivity|]. destruct x; cbn; try (f_equal; auto; fail).
    assert (M : nat_mem id s = nat_mem id s').
    { apply eq_true_iff_eq. rewrite !nat_mem_In. apply E. }
    rewrite M. destruct (nat_mem id s'); [now apply IH|]. f_equal. apply IH. intros n. cbn. now rewrite E. }
  revert seen. induction a as [|x r IH]; intros seen; [reflexivity|].
  cbn [rev]. destruct x; cbn [dd app].
  5:{ destruct (nat_mem id seen) eqn:M.
      - rewrite IH. f_equal. apply X. intros n. rewrite flat_map_app, !in_app_iff. cbn. apply nat_mem_In in M. intuition (subst; auto).
      - rewrite IH. cbn. f_equal. f_equal. apply X. intros n. rewrite flat_map_app, !in_app_iff. cbn. tauto. }
  all: cbn; f_equal; rewrite IH; f_equal; apply X; intros n0; rewrite flat_map_app, !in_app_iff; cbn; tauto.
Qed.

(** ** Bracketing *)

(** What remains of [st] of [bracketed] after a list; [None]: it is not bracketed. *)
Definition bstep (st : option (nat * bool)) (x : bitem) : option (option (nat * bool)) :=
  match x with
  | BI _ => Some (option_map (fun y => (fst y, true)) st)
  | BTB id _ _ _ => match st with None => Some (Some (id, false)) | _ => None end
  | BTE id => match st with Some (id', true) => if Nat.eqb id id' then Some None else None | _ => None end
  | _ => Some st
  end.
Fixpoint brs (st : option (nat * bool)) (l : list bitem) : option (option (nat * bool)) :=
  match l with [] => Some st | x :: r => match bstep st x with Some s => brs s r | None => None end end.
Lemma brs_app a b : forall st, brs st (a ++ b) = match brs st a with Some s => brs s b | None => None end.
Proof. induction a as [|x r IH]; intros st; [reflexivity|]. cbn. destruct (bstep st x); auto. Qed.

(** The same with try blocks that are empty but can be merged with the one before, because
    there is no instruction between and they have the same handler.  Closed: the handler of
    the try block that was just closed; open: its handler, and whether it is not empty or can
    be merged. *)
Inductive tst : Type := TC (m : option (nat * bool)) | TO (h : nat * bool) (ok : bool).
Definition same_h (a b : nat * bool) : bool := Nat.eqb (fst a) (fst b) && Bool.eqb (snd a) (snd b).
Section Trun.
  Context (f : pyobj -> nat).
  Definition tstep (st : tst) (x : bitem) : option tst :=
    match x, st with
    | BI _, TO h _ => Some (TO h true)
    | BI _, TC _ => Some (TC None)
    | BTB _ t la _, TC m => Some (TO (f t, la) (match m with Some h => same_h h (f t, la) | None => false end))
    | BTB _ _ _ _, TO _ _ => None
    | BTE _, TO h true => Some (TC (Some h))
    | BTE _, _ => None
    | _, _ => Some st
    end.
  Fixpoint trun (st : tst) (l : list bitem) : option tst :=
    match l with [] => Some st | x :: r => match tstep st x with Some s => trun s r | None => None end end.
  Lemma trun_app a b : forall st, trun st (a ++ b) = match trun st a with Some s => trun s b | None => None end.
  Proof. induction a as [|x r IH]; intros st; [reflexivity|]. cbn. destruct (tstep st x); auto. Qed.
End Trun.
Lemma same_h_refl h : same_h h h = true.
Proof. unfold same_h. rewrite Nat.eqb_refl. now destruct (snd h). Qed.

(** [k] is ended in [l] before any instruction and any TryBegin. *)
Fixpoint ended (k : nat) (l : list bitem) : bool :=
  match l with
  | BTE j :: r => Nat.eqb k j || ended k r
  | BSet _ :: r | BLabel _ :: r => ended k r
  | _ => false
  end.

Lemma ended_base k l : forall seen op opened, ~ In k seen -> paired op opened (dd seen l) = true -> ended k l = true ->
  op = Some k /\ paired None opened (dd (k :: seen) l) = true
  /\ (forall f o, wg f None (dd (k :: seen) l) = wg f o (dd seen l))
  /\ (forall f st, trun f st (BTE k :: dd (k :: seen) l) = trun f st (dd seen l)).
Proof.
  induction l as [|x r IH]; intros seen op opened NK P E; [discriminate|].
  destruct x as [i|m|z|id t la d|id]; cbn in E; try discriminate.
  - cbn in P. destruct (IH seen op opened NK P E) as (A & B & C & D). split; [exact A|]. split; [exact B|]. split; [exact C|].
    intros f st. specialize (D f st). cbn in D |- *. destruct st as [|h []]; auto.
  - cbn in P. destruct (IH seen op opened NK P E) as (A & B & C & D). split; [exact A|]. split; [exact B|]. split; [intros f o; cbn; f_equal; apply C|].
    intros f st. specialize (D f st). cbn in D |- *. destruct st as [|h []]; auto.
  - destruct (Nat.eqb k id) eqn:Q.
    + apply Nat.eqb_eq in Q. subst id. cbn in P |- *. rewrite Nat.eqb_refl. cbn.
      destruct (nat_mem k seen) eqn:M; [apply nat_mem_In in M; contradiction|].
      cbn in P. apply andb_true_iff in P. destruct P as [P1 P]. destruct op as [k'|]; [|discriminate].
      apply Nat.eqb_eq in P1. subst k'. repeat split; auto.
    + cbn in E. cbn in P |- *. rewrite Nat.eqb_sym in Q. rewrite Q. cbn.
      destruct (nat_mem id seen) eqn:M.
      * unfold nat_mem in M. rewrite M. exact (IH seen op opened NK P E).
      * exfalso. cbn in P. apply andb_true_iff in P. destruct P as [P1 P].
        destruct (IH (id :: seen) None opened) as (A & _); auto; [|discriminate].
        intros [->|J]; [rewrite Nat.eqb_refl in Q; discriminate|contradiction].
Qed.

(** Inserting a TryEnd for a try block that is already ended, or ended right after. *)
Lemma insert_end k B A : forall seen op opened, paired op opened (dd seen (A ++ B)) = true ->
  In (BTE k) A \/ In k seen \/ ended k B = true ->
  paired op opened (dd seen (A ++ BTE k :: B)) = true
  /\ (forall f o, wg f o (dd seen (A ++ BTE k :: B)) = wg f o (dd seen (A ++ B)))
  /\ (forall f st, trun f st (dd seen (A ++ BTE k :: B)) = trun f st (dd seen (A ++ B))).
Proof.
  induction A as [|x r IH]; intros seen op opened P E.
  { cbn [app] in *. destruct (nat_mem k seen) eqn:M; [cbn; rewrite M; auto|].
    assert (NK : ~ In k seen) by (intros J; apply nat_mem_In in J; congruence).
    destruct E as [[]|[J|E]]; [contradiction|].
    destruct (ended_base k B seen op opened NK P E) as (-> & P2 & W & TR).
    cbn [dd]. rewrite M. split; [cbn; rewrite Nat.eqb_refl; exact P2|]. split; [intros f o; apply W|exact TR]. }
  assert (E' : (forall j, x <> BTE j) -> In (BTE k) r \/ In k seen \/ ended k B = true).
  { intros NX. destruct E as [[X|J]|E]; [now destruct (NX k)|now left|now right]. }
  destruct x as [i|m|z|id t la d|id]; cbn [app dd] in *.
  - destruct (IH seen op opened P) as (A1 & A2 & A3); [apply E'; discriminate|]. split; [exact A1|]. split; [intros f o; cbn; f_equal; apply A2|]. intros f st. cbn. destruct st; auto.
  - destruct (IH seen op opened P) as (A1 & A2 & A3); [apply E'; discriminate|]. split; [exact A1|]. split; [intros f o; cbn; apply A2|]. intros f st. cbn. auto.
  - destruct (IH seen op opened P) as (A1 & A2 & A3); [apply E'; discriminate|]. split; [exact A1|]. split; [intros f o; cbn; f_equal; apply A2|]. intros f st. cbn. destruct st; auto.
  - cbn in P |- *. apply andb_true_iff in P. destruct P as [P1 P].
    destruct (IH seen (Some id) (id :: opened) P) as (A1 & A2 & A3); [apply E'; discriminate|].
    rewrite P1, A1. split; [reflexivity|]. split; [intros f o; apply A2|]. intros f st. cbn. destruct st as [|h []]; auto.
  - destruct (nat_mem id seen) eqn:M.
    + apply IH; [exact P|]. destruct E as [[X|J]|E]; [|now left|now right].
      injection X as ->. right. left. now apply nat_mem_In.
    + cbn in P |- *. apply andb_true_iff in P. destruct P as [P1 P]. rewrite P1.
      destruct (IH (id :: seen) None opened P) as (A1 & A2 & A3).
      { destruct E as [[X|J]|[J|E]]; [injection X as ->; right; left; now left|now left|right; left; now right|right; now right]. }
      rewrite A1. split; [reflexivity|]. split; [intros f o; apply A2|]. intros f st. cbn. destruct st as [|h []]; auto.
Qed.

Lemma ended_insert k k' A B : ended k (A ++ B) = true -> ended k (A ++ BTE k' :: B) = true.
Proof.
  induction A as [|x r IH]; cbn.
  - intros ->. now rewrite orb_true_r.
  - destruct x; cbn; auto. destruct (Nat.eqb k id); cbn; auto.
Qed.

(** Occurrences by number of instructions *)
Lemma ninstrs_app a b : ninstrs (a ++ b) = (ninstrs a + ninstrs b)%nat.
Proof. unfold ninstrs. now rewrite filter_app, app_length. Qed.
Lemma ninstrs_cons x l : ninstrs (x :: l) = ((if is_instr x then 1 else 0) + ninstrs l)%nat.
Proof. unfold ninstrs. cbn. now destruct (is_instr x). Qed.

(** A list cut in two in two ways *)
Lemma cut {A} (a b c d : list A) x : a ++ x :: b = c ++ d ->
  (exists m, c = a ++ x :: m /\ b = m ++ d) \/ (exists m, a = c ++ m /\ d = m ++ x :: b).
Proof.
  revert c. induction a as [|y a IH]; intros c E; cbn in E.
  - destruct c as [|z c]; cbn in E.
    + right. exists []. auto.
    + injection E as <- ->. left. exists c. auto.
  - destruct c as [|z c]; cbn in E.
    + right. exists (y :: a). auto.
    + injection E as <- E. destruct (IH c E) as [(m & -> & ->)|(m & -> & ->)]; [left|right]; exists m; auto.
Qed.

(** [BTE k] with at most as many instructions before it as in [A], while the TryBegin of
    [k] comes before: the end is in [A] or right after it. *)
Lemma ended_by_count k (A B a1 b1 a2 b2 : list bitem) t la d op opened :
  paired op opened (A ++ B) = true -> (forall m, op = Some m -> In m opened) ->
  A ++ B = a1 ++ BTB k t la d :: b1 -> (ninstrs a1 < ninstrs A)%nat ->
  A ++ B = a2 ++ BTE k :: b2 -> (ninstrs a2 <= ninstrs A)%nat ->
  In (BTE k) A \/ ended k B = true.
Proof.
  intros P O E1 N1 E2 N2. symmetry in E1, E2.
  destruct (cut _ _ _ _ _ E1) as [(m1 & -> & _)|(m1 & -> & _)]; [|rewrite ninstrs_app in N1; lia].
  destruct (cut _ _ _ _ _ E2) as [(m2 & -> & _)|(m2 & -> & ->)].
  { left. apply in_app_iff. right. now left. }
  right. rewrite ninstrs_app in N2. assert (Z : ninstrs m2 = 0%nat) by lia.
  (* state before m2 *)
  rewrite paired_app in P. apply andb_true_iff in P. destruct P as [_ P].
  set (A := a1 ++ BTB k t la d :: m1) in *.
  assert (KO : In k (snd (pst op opened A))).
  { apply pst_ids. right. exists t, la, d. unfold A. apply in_app_iff. right. now left. }
  revert P KO Z. generalize (fst (pst op opened A)) as o, (snd (pst op opened A)) as u. clear.
  induction m2 as [|x r IH]; intros o u P KO Z; cbn.
  { now rewrite Nat.eqb_refl. }
  rewrite ninstrs_cons in Z. destruct x as [i|m|z|id t' la' d'|id]; cbn in Z |- *; try discriminate.
  - cbn in P. eapply IH; eauto.
  - cbn in P. eapply IH; eauto.
  - exfalso. cbn in P. apply andb_true_iff in P. destruct P as [P1 P]. apply andb_true_iff in P1. destruct P1 as [P0 P1].
    apply negb_true_iff in P1. apply (paired_closed _ (Some id) (id :: u) k) in P.
    + destruct P as [_ P]. apply P. apply in_app_iff. right. now left.
    + now right. + intros E. injection E as ->. apply nat_mem_In in KO. congruence.
  - destruct (Nat.eqb k id); [reflexivity|]. cbn in P |- *. apply andb_true_iff in P. destruct P as [P1 P]. eapply IH; eauto.
Qed.
