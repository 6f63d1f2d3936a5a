(** Checkers for concrete cases of C54: what a code object can reach, and which instructions of
    a graph are protected. *)
From Coq Require Import Lia.
From Verif Require Import PyBase OpTable P_Base M_Instr M_Tables M_Concrete M_Bytecode M_Cfg M_Stack
  S_Args S_Prog S_Cfg S_Stack S_Code S_Run P_OpTable P_StackEx.
Open Scope string_scope.
Open Scope list_scope.
Open Scope Z_scope.

Definition pc_eqb (a b : pc) : bool := Nat.eqb (fst a) (fst b) && (snd a =? snd b).
Lemma pc_eqb_ok a b : pc_eqb a b = true <-> a = b.
Proof.
  destruct a as [a c], b as [b d]. unfold pc_eqb. cbn. rewrite andb_true_iff, Nat.eqb_eq, Z.eqb_eq. split; [intros [-> ->]; reflexivity|].
  intros E. injection E as -> ->. auto.
Qed.
Definition pc_mem (a : pc) (l : list pc) : bool := existsb (pc_eqb a) l.
Lemma pc_mem_ok a l : pc_mem a l = true <-> In a l.
Proof.
  unfold pc_mem. rewrite existsb_exists. split; [intros (x & J & E)|intros J; exists a; split; [exact J|now apply pc_eqb_ok]].
  apply pc_eqb_ok in E. now subst.
Qed.

Section Check.
  Variables (v : pyver) (T : optable) (effect : oracle) (co : codeobj).

  (** the instructions that begin at an offset *)
  Definition starting (x : Z) : list nat :=
    filter (fun k => match begins v T co k with Some y => y =? x | None => false end) (seq 0 (S (length (instructions v T co)))).
  Lemma starting_ok k x : begins v T co k = Some x -> In k (starting x).
  Proof.
    intros E. apply filter_In. split; [|rewrite E; apply Z.eqb_refl]. apply in_seq.
    unfold begins in E. destruct (nth_error (instructions v T co) k) eqn:N; [assert (k < length (instructions v T co))%nat; [apply nth_error_Some; congruence|lia]|].
    destruct (Nat.eqb_spec k (length (instructions v T co))); [lia|discriminate].
  Qed.

  Definition units (r : ran) : list Z := map (fun i => r_at r / 2 + Z.of_nat i) (seq 0 (Z.to_nat (r_end r - r_at r))).
  Lemma units_ok r u : r_at r <= 2 * u < r_end r -> In u (units r).
  Proof.
    intros U. unfold units. apply in_map_iff. exists (Z.to_nat (u - r_at r / 2)).
    assert (D : r_at r / 2 <= u) by (apply Z.div_le_upper_bound; lia).
    assert (M : 2 * (r_at r / 2) <= r_at r < 2 * (r_at r / 2) + 2).
    { pose proof (Z.div_mod (r_at r) 2 ltac:(lia)). pose proof (Z.mod_pos_bound (r_at r) 2 ltac:(lia)). lia. }
    split; [lia|]. apply in_seq. lia.
  Qed.

  Definition nexts (c : pc) : list pc :=
    let '(k, d) := c in
    match nth_error (instructions v T co) k with
    | None => []
    | Some r =>
        match opname T (r_op r), effect (r_op r) (r_arg r) (Some false) with
        | Some n, Some e => if str_mem n never_next then [] else [(S k, d + e)]
        | _, _ => []
        end
        ++ (if op_has_jump T (r_op r) then
              match effect (r_op r) (r_arg r) (Some true) with
              | Some e => map (fun k' => (k', d + e)) (starting (goes_to v T r))
              | None => []
              end else [])
        ++ (if PY311 v then flat_map (fun u => match find_handler co u with
              | Some (target, depth, lasti) => map (fun k' => (k', depth + pushed lasti)) (starting (2 * target))
              | None => []
              end) (units r) else [])
    end.
  Lemma nexts_ok c c' : cstep v T effect co c c' -> In c' (nexts c).
  Proof.
    intros [k d r n e N O NN E|k d r k' e N J B E|k d r u target depth lasti k' P N U F B]; unfold nexts; rewrite N, !in_app_iff.
    - left. rewrite O, E. destruct (str_mem n never_next) eqn:M; [|now left]. exfalso. apply NN. now apply str_mem_In.
    - right. left. rewrite J, E. apply in_map_iff. exists k'. split; [reflexivity|now apply starting_ok].
    - right. right. rewrite P. apply in_flat_map. exists u. split; [now apply units_ok|]. rewrite F. apply in_map_iff. exists k'. split; [reflexivity|now apply starting_ok].
  Qed.

  Fixpoint explore (n : nat) (l : list pc) : list pc :=
    match n with
    | O => l
    | S n => explore n (fold_left (fun l c => if pc_mem c l then l else l ++ [c]) (flat_map nexts l) l)
    end.
  Definition closed_under (l : list pc) : bool := forallb (fun c => forallb (fun c' => pc_mem c' l) (nexts c)) l.
  Lemma closed_ok l c c' : closed_under l = true -> In c l -> csteps v T effect co c c' -> In c' l.
  Proof.
    intros K J. induction 1 as [|c1 c2 _ IH S]; [exact J|]. unfold closed_under in K. rewrite forallb_forall in K.
    specialize (K _ IH). rewrite forallb_forall in K. apply pc_mem_ok, K, nexts_ok, S.
  Qed.

  (** nothing grows: from no place reached is the same instruction reached with more items *)
  Definition nothing_grows (first : Z) (n : nat) : bool :=
    let l := explore n [(O, first)] in
    pc_mem (O, first) l && closed_under l
    && forallb (fun c => let m := explore n [c] in
         pc_mem c m && closed_under m && forallb (fun c' => negb (Nat.eqb (fst c) (fst c')) || (snd c' <=? snd c)) m) l.
  Lemma nothing_grows_ok first n : nothing_grows first n = true ->
    forall k d d', reached v T effect co first (k, d) -> csteps v T effect co (k, d) (k, d') -> d' <= d.
  Proof.
    unfold nothing_grows. intros X k d d' R S. apply andb_true_iff in X. destruct X as [X X3]. apply andb_true_iff in X. destruct X as [X1 X2].
    apply pc_mem_ok in X1. pose proof (closed_ok _ _ _ X2 X1 R) as J. rewrite forallb_forall in X3. specialize (X3 _ J).
    cbv zeta in X3. apply andb_true_iff in X3. destruct X3 as [X3 X5]. apply andb_true_iff in X3. destruct X3 as [X3 X4].
    apply pc_mem_ok in X3. pose proof (closed_ok _ _ _ X4 X3 S) as K. rewrite forallb_forall in X5. specialize (X5 _ K). cbn [fst snd] in X5.
    rewrite Nat.eqb_refl in X5. cbn in X5. lia.
  Qed.
End Check.

(** fewer protected instructions *)
Section Mono.
  Variables (T : optable) (ef : instr -> bool -> option (Z * Z)) (g : cfg) (first : Z) (H : nat -> Z).
  Variables c1 c2 : nat -> nat -> nat -> bool -> Prop.
  Hypothesis LE : forall n i h la, c1 n i h la -> c2 n i h la.
  Lemma at_mono c : at_ T ef g first H c1 c -> at_ T ef g first H c2 c.
  Proof.
    induction 1 as [n l O|c c' _ IH S|c h la _ IH M]; [now apply at_entry with (l := l)|eapply at_step; eauto|].
    eapply at_raise; [exact IH|]. destruct c as [[[b i] d] o]. destruct M as [M|M]; [now left|right; auto].
  Qed.
  Lemma regular_mono : regular T ef g first H c2 -> regular T ef g first H c1.
  Proof.
    intros [R1 R2 R3 R4 R5 R6 R7 R8 R9]. constructor; auto.
    - intros b d d' o o' A A'. apply at_mono in A, A'. eauto.
    - intros b i d o h la A C. apply at_mono in A. eauto.
    - intros c h la A M. apply at_mono in A. apply (R8 c h la A). destruct c as [[[b i] d] o]. destruct M as [M|M]; [now left|right; auto].
    - intros b i d o m A. apply at_mono in A. eauto.
  Qed.
End Mono.

Definition protectedb (prog : list (string * parg * loc * option handler)) (g : cfg) (cvs : list (nat * nat * nat * bool)) : bool :=
  forallb (fun m => match nth_error (g_order g) m with
    | None => true
    | Some n => forallb (fun i =>
        match elem g n i with Some (BI _) => match nth_error (map snd prog) (before g m + ninstrs (firstn i (k_items (blk g n)))) with
        | Some (Some (PTo (Some a), la)) => forallb (fun m' => negb (Nat.eqb a (before g m')) ||
            match nth_error (g_order g) m' with
            | None => true
            | Some h => existsb (fun '(n', i', h', la') => Nat.eqb n n' && Nat.eqb i i' && Nat.eqb h h' && Bool.eqb la la') cvs
            end) (seq 0 (length (g_order g)))
        | _ => true
        end | _ => true end) (seq 0 (length (k_items (blk g n))))
    end) (seq 0 (length (g_order g))).
Lemma protectedb_ok prog g cvs : protectedb prog g cvs = true -> forall n i h la, protected prog g n i h la -> cov cvs n i h la.
Proof.
  unfold protectedb. intros X n i h la (x & k & a & m' & E & (m & O & ->) & P & O' & ->).
  rewrite forallb_forall in X. specialize (X m). rewrite O in X.
  assert (LM : In m (seq 0 (length (g_order g)))). { apply in_seq. assert (m < length (g_order g))%nat; [apply nth_error_Some; congruence|lia]. }
  assert (LM' : In m' (seq 0 (length (g_order g)))). { apply in_seq. assert (m' < length (g_order g))%nat; [apply nth_error_Some; congruence|lia]. }
  assert (LI : In i (seq 0 (length (k_items (blk g n))))).
  { apply in_seq. unfold elem in E. assert (i < length (k_items (blk g n)))%nat; [apply nth_error_Some; congruence|lia]. }
  specialize (X LM). rewrite forallb_forall in X. specialize (X _ LI). cbv beta in X. rewrite E, P in X.
  rewrite forallb_forall in X. specialize (X _ LM'). cbv beta in X. rewrite Nat.eqb_refl, O' in X. cbn [negb orb] in X.
  apply existsb_exists in X. destruct X as ([[[n' i'] h'] la'] & J & Q). repeat (apply andb_true_iff in Q; destruct Q as [Q ?]).
  apply Nat.eqb_eq in Q, H1, H0. apply eqb_prop in H. subst. unfold cov. exact J.
Qed.

(** every TryBegin is met *)
Section Met.
  Variables (T : optable) (ef : instr -> bool -> option (Z * Z)) (g : cfg) (first : Z) (H : nat -> Z) (cv : nat -> nat -> nat -> bool -> Prop).
  Lemma confs_at n c : In c (all_confs T ef g first H [] n) -> at_ T ef g first H cv c.
  Proof.
    unfold all_confs. apply grown_in.
    - intros x y A J. apply in_app_iff in J. destruct J as [J|J]; [eapply at_step; [exact A|now apply succs_step]|].
      unfold covraises in J. apply in_map_iff in J. destruct J as ([h la] & <- & J). apply covers_may in J.
      eapply at_raise; [exact A|]. destruct x as [[[b i] d] o]. destruct J as [J|[]]. now left.
    - intros x J. unfold entries in J. destruct (g_order g) as [|m l] eqn:O; [destruct J|]. destruct J as [<-|[]]. eapply at_entry. exact O.
  Qed.
  Definition metb (n : nat) : bool :=
    let L := all_confs T ef g first H [] n in
    forallb (fun m => forallb (fun i => match elem g m i with
      | Some (BTB _ _ _ _) => existsb (fun c => Nat.eqb (block_of c) m && Nat.eqb (index_of c) i) L
      | _ => true end) (seq 0 (length (k_items (blk g m))))) (seq 0 (length (g_heap g))).
  Lemma metb_ok k : metb k = true -> forall n i id h la sd, elem g n i = Some (BTB id (OBlock h) la sd) -> exists d o, at_ T ef g first H cv (n, i, d, o).
  Proof.
    unfold metb. cbv zeta. intros X n i id h la sd E. rewrite forallb_forall in X.
    assert (J : In n (seq 0 (length (g_heap g)))).
    { apply in_seq. split; [lia|]. destruct (Nat.lt_ge_cases n (length (g_heap g))) as [L|L]; [lia|]. exfalso.
      unfold elem, blk in E. apply nth_error_None in L. rewrite L in E. destruct i; discriminate. }
    specialize (X _ J). rewrite forallb_forall in X.
    assert (JI : In i (seq 0 (length (k_items (blk g n))))).
    { apply in_seq. unfold elem in E. assert (i < length (k_items (blk g n)))%nat; [apply nth_error_Some; congruence|lia]. }
    specialize (X _ JI). cbv beta in X. rewrite E in X. apply existsb_exists in X. destruct X as ([[[b' i'] d] o] & JC & Q).
    apply andb_true_iff in Q. destruct Q as [Q1 Q2]. apply Nat.eqb_eq in Q1, Q2. unfold block_of, index_of in *. cbn in *. subst.
    exists d, o. eapply confs_at. exact JC.
  Qed.
End Met.

Section Explore.
  Variables (v : pyver) (T : optable) (effect : oracle) (co : codeobj).
  Lemma starting_begins k x : In k (starting v T co x) -> begins v T co k = Some x.
  Proof. unfold starting. intros J. apply filter_In in J. destruct J as [_ J]. destruct (begins v T co k) as [y|]; [|discriminate]. apply Z.eqb_eq in J. now subst. Qed.
  (** the steps whose places can be decided *)
  Definition nextsb (c : pc) : list pc :=
    let '(k, d) := c in
    match nth_error (instructions v T co) k with
    | None => []
    | Some r =>
        match opname T (r_op r), effect (r_op r) (r_arg r) (Some false) with
        | Some n, Some e => if str_mem n never_next then [] else [(S k, d + e)]
        | _, _ => []
        end
        ++ (if op_has_jump T (r_op r) then
              match effect (r_op r) (r_arg r) (Some true) with
              | Some e => map (fun k' => (k', d + e)) (starting v T co (goes_to v T r))
              | None => []
              end else [])
        ++ (if PY311 v then flat_map (fun u => if (r_at r <=? 2 * u) && (2 * u <? r_end r) then match find_handler co u with
              | Some (target, depth, lasti) => map (fun k' => (k', depth + pushed lasti)) (starting v T co (2 * target))
              | None => []
              end else []) (units r) else [])
    end.
  Lemma nextsb_ok c c' : In c' (nextsb c) -> cstep v T effect co c c'.
  Proof.
    destruct c as [k d]. unfold nextsb. destruct (nth_error (instructions v T co) k) as [r|] eqn:N; [|intros []].
    rewrite !in_app_iff. intros [J|[J|J]].
    - destruct (opname T (r_op r)) as [n|] eqn:O; [|destruct J]. destruct (effect (r_op r) (r_arg r) (Some false)) as [e|] eqn:E; [|destruct J].
      destruct (str_mem n never_next) eqn:M; [destruct J|]. destruct J as [<-|[]]. eapply cs_next; eauto. rewrite <- str_mem_In. congruence.
    - destruct (op_has_jump T (r_op r)) eqn:OJ; [|destruct J]. destruct (effect (r_op r) (r_arg r) (Some true)) as [e|] eqn:E; [|destruct J].
      apply in_map_iff in J. destruct J as (k' & <- & J). eapply cs_jump; eauto. now apply starting_begins.
    - destruct (PY311 v) eqn:P; [|destruct J]. apply in_flat_map in J. destruct J as (u & _ & J).
      destruct ((r_at r <=? 2 * u) && (2 * u <? r_end r)) eqn:U; [|destruct J].
      destruct (find_handler co u) as [[[target depth] lasti]|] eqn:F; [|destruct J].
      apply in_map_iff in J. destruct J as (k' & <- & J). eapply cs_raise; eauto; [lia|now apply starting_begins].
  Qed.
  Fixpoint exploreb (n : nat) (l : list pc) : list pc :=
    match n with
    | O => l
    | S n => exploreb n (fold_left (fun l c => if pc_mem c l then l else l ++ [c]) (flat_map nextsb l) l)
    end.
  Lemma exploreb_ok n : forall l c', In c' (exploreb n l) -> exists c, In c l /\ csteps v T effect co c c'.
  Proof.
    induction n as [|n IH]; intros l c' J; cbn in J; [exists c'; split; [exact J|apply cs_refl]|].
    apply IH in J. destruct J as (c & J & S).
    assert (X : In c l \/ In c (flat_map nextsb l)).
    { revert J. generalize (flat_map nextsb l). clear. intros m. revert l. induction m as [|x m IH]; intros l J; [now left|]. cbn in J.
      apply IH in J. destruct J as [J|J]; [|right; now right]. destruct (pc_mem x l); [now left|]. apply in_app_iff in J. destruct J as [J|[<-|[]]]; [now left|right; now left]. }
    destruct X as [X|X]; [exists c; auto|]. apply in_flat_map in X. destruct X as (c0 & J0 & X). apply nextsb_ok in X.
    exists c0. split; [exact J0|]. clear - X S. induction S as [|c1 c2 _ IH S]; [eapply cs_more; [apply cs_refl|exact X]|eapply cs_more; eauto].
  Qed.
  Lemma exploreb_reached n k d first : pc_mem (k, d) (exploreb n [(O, first)]) = true -> reached v T effect co first (k, d).
  Proof. intros M. apply pc_mem_ok, exploreb_ok in M. destruct M as (c & [<-|[]] & S). exact S. Qed.
End Explore.
