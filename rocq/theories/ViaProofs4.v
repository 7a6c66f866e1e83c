(** Proofs: optimization of tasks whose rollouts depend on a state of the world that has an invariant. *)
From Coq Require Import String.
From Verif Require Import Base BaseLemmas SessionModel SessionSpec UpdatersModel UpdatersSpec UpdatersProofs UpdatersProofs2 UpdatersProofs3 UpdatersProofs4 UpdatersProofs5 LoopModel LoopSpec LoopProofs LoopProofs4
  EquivSpec EquivExamples OptSpec OptProofs OptProofs2 OptProofs3 OptProofs4 ViaSpec.
Open Scope R_scope.

Section P.
Variables (CV P S : Type).
Variable category : oval CV P -> ext.
Variable load : ext -> oval CV P -> oval CV P.
Variable orc : oracles CV S.
Variable Inv : S -> Prop.
Hypothesis Ig : forall o d n, Inv o -> Inv (fst (o_gen _ _ orc o d n)).
Hypothesis Iu : forall o d m cs, Inv o -> Inv (fst (o_upd _ _ orc o d m cs)).
Hypothesis Ir : forall o x, Inv o -> Inv (fst (o_roll _ _ orc o x)).
Hypothesis Ie : forall o v x, Inv o -> Inv (fst (o_evalr _ _ orc o v x)).

Definition rolled (e : event CV) : Prop :=
  genuine orc e /\ match e with ERoll x v => exists o o', Inv o /\ o_roll _ _ orc o x = (o', Ok v) | _ => True end.
Definition soundI {A} (m : LoopModel.M CV P S A) : Prop := forall s s' r, Inv (st_out s) -> m s = (s', r) ->
  Inv (st_out s') /\ forall e, In e (st_trace s') -> In e (st_trace s) \/ rolled e.
Lemma soundI_ret {A} (a : A) : soundI (LoopModel.ret CV P S a).
Proof. intros s s' r I H. injection H as <- <-. auto. Qed.
Lemma soundI_bind {A B} (m : LoopModel.M CV P S A) (k : A -> LoopModel.M CV P S B) :
  soundI m -> (forall a, soundI (k a)) -> soundI (bindM CV P S m k).
Proof.
  intros Hm Hk s s' r I H. unfold bindM in H. destruct (m s) as [s1 [a|er]] eqn:E.
  - destruct (Hm s s1 _ I E) as [I1 T1]. destruct (Hk a s1 s' r I1 H) as [I2 T2]. split; [exact I2|]. intros e He. destruct (T2 e He) as [He1|He1]; [exact (T1 e He1)|now right].
  - injection H as <- <-. exact (Hm s s1 _ I E).
Qed.
Lemma soundI_call {A} (f : S -> S * res A) (ev : A -> event CV) :
  (forall o, Inv o -> Inv (fst (f o))) -> (forall o o' a, Inv o -> f o = (o', Ok a) -> rolled (ev a)) -> soundI (call_out CV P S f ev).
Proof.
  intros Hi Hf s s' r I H. unfold call_out in H. pose proof (Hi _ I) as I1. destruct (f (st_out s)) as [o [a|er]] eqn:E; injection H as <- <-; cbn in *.
  - split; [exact I1|]. intros e He. apply in_app_or in He. destruct He as [He|[<-|[]]]; [now left|right; exact (Hf _ _ _ I E)].
  - auto.
Qed.
Lemma soundI_db f : soundI (on_db CV P S f).
Proof. intros s s' r I H. injection H as <- <-. auto. Qed.
Lemma soundI_gen d n : soundI (m_gen CV P S orc d n).
Proof. apply soundI_call; [auto|]. intros o o' a I E. split; [exists o, o'; exact E|exact Logic.I]. Qed.
Lemma soundI_roll x : soundI (m_roll CV P S orc x).
Proof. apply soundI_call; [auto|]. intros o o' a I E. split; exists o, o'; auto. Qed.
Lemma soundI_evalr v x : soundI (m_evalr CV P S orc v x).
Proof. apply soundI_call; [auto|]. intros o o' a I E. split; [exists o, o'; exact E|exact Logic.I]. Qed.
Lemma soundI_upd d m cs : soundI (m_upd CV P S orc d m cs).
Proof. apply soundI_call; [auto|]. intros o o' [d' w] I E. split; [exists o, o'; exact E|exact Logic.I]. Qed.
Ltac go := repeat first [ apply soundI_ret | apply soundI_db | apply soundI_gen | apply soundI_roll
  | apply soundI_evalr | apply soundI_upd | apply soundI_bind; [|intros ?] ].
Lemma soundI_rollouts i xs : forall j, soundI (rollouts CV P S category orc i j xs).
Proof. induction xs as [|x xs IH]; intros j; cbn [rollouts]; unfold add_rollout, m_tell; go. apply IH. Qed.
Lemma soundI_task n k : forall i d, soundI (task_loop CV P S category orc n i k d).
Proof.
  induction k as [|k IH]; intros i d; cbn [task_loop]; [apply soundI_ret|].
  apply soundI_bind; [|intros; apply IH]. unfold task_update, add_eval_task, m_add_eval, m_tell, m_add_update.
  repeat first [apply soundI_rollouts | progress go].
Qed.

Variable argsort : list R -> list nat.
Hypothesis Hsort : argsort_ok argsort.
Variables (u : updater) (f : list R -> R) (N : nat) (n : Z).
Hypothesis Hu : forall o d m cs o' r, o_upd _ _ orc o d m cs = (o', Ok r) -> update_distribution argsort u d m cs = Ok r.
Hypothesis Hg : forall o d o' m, o_gen _ _ orc o d n = (o', Ok m) -> mat_wf m /\ mcols m = length (d_mean d).
Hypothesis Pl : prefers_low (u_method u) (u_elit u).
Hypothesis C : convex N f.
Lemma run_task_improves_from w0 r tk ts0 up d0 k (s s' : st CV P S) d' :
  (forall o x o' v o1 o1' c, Inv o -> length x = N -> o_roll _ _ orc o x = (o', Ok v) -> o_evalr _ _ orc o1 v x = (o1', Ok c) -> has_total c (f x)) ->
  Inv (st_out s) -> st_trace s = [] -> length (d_mean d0) = N ->
  run_optimization_task CV P S category orc w0 r tk ts0 up d0 k n s = (s', Ok d') ->
  exists ts, length ts = k /\ chained t_before t_after d0 ts d' /\
    (forall i t, nth_error ts i = Some t -> task_stored load (st_db s') i t) /\
    (forall t, In t ts -> has_total (u_mean_cost (t_upd t)) (f (d_mean (t_before t))) /\ improves f (t_upd t)).
Proof.
  intros He I0 T0 LN E.
  assert (G : forall e, In e (st_trace s') -> In e (st_trace s) \/ rolled e).
  { intros e Hev. unfold run_optimization_task in E. edestruct (soundI_task n k 0%nat d0) as [_ G0]; [|exact E|exact (G0 e Hev)]. exact I0. }
  destruct (run_optimization_task_full CV P S category load orc w0 r tk ts0 up d0 k n s s' (Ok d') E) as (us & dl & rest & cs & es & Ch & Cm & Tr & St & _ & _ & _ & L & -> & -> & _).
  rewrite app_nil_r, T0 in Tr. cbn [List.app] in Tr. exists us. split; [exact L|]. split; [exact Ch|]. split; [exact St|].
  assert (G1 : forall t, In t us -> forall e, In e (task_events n t) -> rolled e).
  { intros t Ht e Hev. destruct (G e) as [H|H]; [rewrite Tr; apply in_flat_map; eauto|rewrite T0 in H; destruct H|exact H]. }
  assert (Q : forall t, In t us -> let a := t_upd t in genuine orc (EUpd (u_dist a) (u_samples a) (u_costs a) (u_new a) (u_weights a)) /\ genuine orc (EGen (u_dist a) n (u_samples a))).
  { intros t Ht. split; apply (G1 t Ht); unfold task_events.
    - do 3 (apply in_or_app; right). now left.
    - apply in_or_app. right. now left. }
  intros t Ht. set (a := t_upd t). pose proof (G1 t Ht) as G'. destruct (Q t Ht) as [Q1 Q2].
  assert (LD : length (d_mean (u_dist a)) = N).
  { apply (chained_length t_before t_after N us d0 dl Ch LN); [|exact Ht]. intros b Hb. destruct (Q b Hb). now apply (record_length argsort Hsort CV S orc u n (t_upd b) Hu Hg). }
  assert (LR : forall x, In x (mrows (u_samples a)) -> length x = N).
  { intros x Hx. destruct Q2 as (o & o' & E1). destruct (Hg _ _ _ _ E1) as [W Hc]. unfold mat_wf in W. rewrite Forall_forall in W. rewrite (W x Hx). etransitivity; [exact Hc|exact LD]. }
  rewrite Forall_forall in Cm. destruct (Cm t Ht) as [C1 C2].
  assert (K : forall x v c, In (x, (v, c)) (combine (mrows (u_samples a)) (combine (t_vars t) (u_costs a))) \/ (x = d_mean (u_dist a) /\ v = t_mean_vars t /\ c = u_mean_cost a) -> has_total c (f x)).
  { intros x v c Hx. assert (I : forall e, In e (rollout_events x (v, c)) -> rolled e).
    { intros e Hev. apply G'. unfold task_events. fold a. destruct Hx as [Hx|(-> & -> & ->)].
      - apply in_or_app. right. apply in_or_app. right. apply in_or_app. left. apply in_concat. exists (rollout_events x (v, c)). split; [|exact Hev].
        destruct (In_nth_error _ _ Hx) as [i Hi]. destruct (combine_nth_error_inv _ _ _ _ _ Hi) as [A B]. exact (map2_in rollout_events _ _ i x (v, c) A B).
      - apply in_or_app. now left. }
    destruct (I (ERoll x v)) as (_ & o & o' & Io & E1); [left; reflexivity|]. destruct (I (EEvalR v x c)) as ((o1 & o1' & E2) & _); [right; left; reflexivity|].
    assert (Lx : length x = N) by (destruct Hx as [Hx|(-> & _)]; [apply LR, (in_combine_l _ _ _ _ Hx)|exact LD]).
    exact (He _ _ _ _ _ _ _ Io Lx E1 E2). }
  split; [apply (K _ (t_mean_vars t)); right; auto|].
  apply (record_improves argsort Hsort CV S orc u f N n a Hu Hg Pl C).
  - apply totals_map2; [exact C1|]. intros i x c Hx Hc.
    destruct (combine_nth_error (t_vars t) (u_costs a) i c) as [v Hv]; [|exact Hc|].
    { rewrite C2. symmetry. exact C1. }
    apply (K x v). left. apply (nth_error_In _ i). now apply combine_nth_error_intro.
  - exact Q1.
  - exact Q2.
  - exact LD.
Qed.
End P.

Lemma usable_generate m0 d n : mat_wf m0 -> usable_bounds (d_bounds d) (mcols m0) ->
  exists m, generate_samples (fun _ _ _ => m0) d n = Ok m /\ mat_wf m /\ mcols m = mcols m0 /\ nrows m = nrows m0.
Proof.
  intros W H. unfold generate_samples. destruct (d_bounds d) as [[lo up]|]; [|exists m0; auto]. destruct H as (H1 & H2 & H3).
  assert (E : exists m, clip_samples m0 lo up = Ok m /\ nrows m = nrows m0).
  { unfold clip_samples. rewrite H2, H3. cbn [andb]. destruct lo, up; try (exfalso; destruct H1; congruence); (eexists; split; [reflexivity|]; unfold nrows; cbn [mrows]; apply map_length). }
  destruct E as (m & E & Rm). exists m. split; [exact E|]. destruct (clip_sized _ _ _ _ W E) as [W1 C1]. auto.
Qed.

(** success *)
Section Success.
Variables (CV P S : Type) (category : oval CV P -> ext) (rng : S -> list R -> mat -> Z -> S * res mat) (ev : S -> list R -> S * res cost)
  (argsort : list R -> list nat) (u : updater) (roll : S -> list R -> S * res CV) (evr : S -> CV -> list R -> S * res cost) (n : Z) (N : nat) (Inv : S -> Prop) (B : option (bound * bound)).
Hypothesis HB : usable_bounds B N.
Hypothesis Hsort : argsort_ok argsort.
Hypothesis Hs : sized rng.
Hypothesis Hrng : forall s mean C, Inv s -> exists s' m, rng s mean C n = (s', Ok m) /\ nrows m = Z.to_nat n /\ Inv s'.
Hypothesis Hn : (1 <= n)%Z.
Hypothesis Hroll : forall s x, Inv s -> length x = N -> exists s' v, roll s x = (s', Ok v) /\ Inv s' /\
  forall s1, Inv s1 -> exists s2 c, evr s1 v x = (s2, Ok c) /\ c <> CVec [] /\ Inv s2.
Hypothesis Hu : forall a, u <> UAdapt a.
Hypothesis Had : admissible (u_method u) (u_elit u) (Z.to_nat n).
Let orc := bbo_oracles rng ev argsort u roll evr.

Lemma rolls_ok i : forall xs j, (forall x, In x xs -> length x = N) -> forall s : st CV P S, Inv (st_out s) -> exists s' cs,
  rollouts CV P S category orc i j xs s = (s', Ok cs) /\ length cs = length xs /\ ~ In (CVec []) cs /\ Inv (st_out s').
Proof.
  induction xs as [|x xs IH]; intros j L s I; [exists s, []; repeat split; [intros []|exact I]|]. cbn [rollouts].
  destruct (Hroll (st_out s) x I (L x (or_introl eq_refl))) as (o & v & E & I1 & Hv).
  assert (E1 : m_roll CV P S orc x s = (St o (st_trace s ++ [ERoll x v])%list (st_db s), Ok v)).
  { unfold m_roll, call_out. cbn [orc bbo_oracles o_roll]. now rewrite E. }
  rewrite (bind_ok _ _ _ _ _ E1). destruct (Hv o I1) as (o2 & c & E2 & Hc & I2). set (s1 := St o _ _).
  assert (E3 : m_evalr CV P S orc v x s1 = (St o2 (st_trace s1 ++ [EEvalR v x c])%list (st_db s1), Ok c)).
  { unfold m_evalr, call_out. cbn [orc bbo_oracles o_evalr s1 st_out]. now rewrite E2. }
  rewrite (bind_ok _ _ _ _ _ E3). erewrite bind_ok by reflexivity.
  match goal with |- exists s' cs, bindM _ _ _ _ _ ?s2 = _ /\ _ => destruct (IH (Datatypes.S j) (fun y Hy => L y (or_intror Hy)) s2 I2) as (s3 & cs & E4 & L4 & H4 & I4) end.
  rewrite (bind_ok _ _ _ _ _ E4). exists s3, (c :: cs). split; [reflexivity|]. split; [cbn; lia|]. split; [|exact I4]. intros [H|H]; [congruence|now apply H4].
Qed.
Lemma task_update_ok i d (s : st CV P S) : length (d_mean d) = N -> d_bounds d = B -> Inv (st_out s) ->
  exists s' d', task_update CV P S category orc n i d s = (s', Ok d') /\ length (d_mean d') = N /\ d_bounds d' = B /\ Inv (st_out s').
Proof.
  intros L Bd I. unfold task_update. destruct (Hroll (st_out s) (d_mean d) I L) as (o & v & E & I1 & Hv).
  assert (E1 : m_roll CV P S orc (d_mean d) s = (St o (st_trace s ++ [ERoll (d_mean d) v])%list (st_db s), Ok v)).
  { unfold m_roll, call_out. cbn [orc bbo_oracles o_roll]. now rewrite E. }
  rewrite (bind_ok _ _ _ _ _ E1). clear E1. destruct (Hv o I1) as (o1 & c & Ec & Hc & I2). set (s1 := St o _ _).
  assert (E3 : m_evalr CV P S orc v (d_mean d) s1 = (St o1 (st_trace s1 ++ [EEvalR v (d_mean d) c])%list (st_db s1), Ok c)).
  { unfold m_evalr, call_out. cbn [orc bbo_oracles o_evalr s1 st_out]. now rewrite Ec. }
  rewrite (bind_ok _ _ _ _ _ E3). clear E3. erewrite bind_ok by reflexivity.
  match goal with |- exists s' d', bindM _ _ _ _ _ ?s2 = _ /\ _ => set (s2' := s2); assert (I2' : Inv (st_out s2')) by exact I2 end. clearbody s2'.
  destruct (Hrng (st_out s2') (d_mean d) (d_covar d) I2') as (o2 & m0 & Em & Rm0 & I3). destruct (Hs _ _ _ _ _ _ Em) as [W0 Hc0].
  destruct (usable_generate m0 d (Z.to_nat n)) as (m & Eg & W & Hc2 & Rm1); [exact W0|rewrite Hc0, Bd, L; exact HB|]. rewrite Hc0 in Hc2. rewrite Rm0 in Rm1. rename Rm1 into Rm.
  assert (E2 : m_gen CV P S orc d n s2' = (St o2 (st_trace s2' ++ [EGen d n m])%list (st_db s2'), Ok m)).
  { unfold m_gen, call_out. cbn [orc bbo_oracles o_gen]. rewrite Em. cbn [bind]. now rewrite Eg. }
  rewrite (bind_ok _ _ _ _ _ E2). clear E2. set (s3 := St o2 _ _).
  destruct (rolls_ok i (mrows m) 0%nat) with (s := s3) as (s4 & cs & E4 & L3 & H3 & I4); [|exact I3|].
  { intros x Hx. unfold mat_wf in W. rewrite Forall_forall in W. rewrite (W x Hx). congruence. }
  rewrite (bind_ok _ _ _ _ _ E4). clear E4.
  assert (Lc : length cs = Z.to_nat n) by (rewrite L3; exact Rm).
  destruct (update_mean_decay_ok argsort Hsort u d m cs Hu) as (d' & w & E4).
  { intros ->. cbn in Lc. lia. }
  { exact H3. }
  { now rewrite Lc. }
  { unfold nrows. now symmetry. }
  assert (E5 : m_upd CV P S orc d m cs s4 = (St (st_out s4) (st_trace s4 ++ [EUpd d m cs d' w])%list (st_db s4), Ok (d', w))).
  { unfold m_upd, call_out. cbn [orc bbo_oracles o_upd]. rewrite E4. reflexivity. }
  rewrite (bind_ok _ _ _ _ _ E5). clear E5. erewrite bind_ok by reflexivity.
  eexists. exists d'. split; [reflexivity|]. split; [|split].
  - destruct (update_mean_formula argsort Hsort u d m cs d' w E4) as (_ & _ & Hl & _). congruence.
  - destruct (update_inv argsort u d m cs d' w E4) as (_ & _ & Hb). congruence.
  - exact I4.
Qed.
Lemma task_loop_ok : forall k i d (s : st CV P S), length (d_mean d) = N -> d_bounds d = B -> Inv (st_out s) ->
  exists s' d', task_loop CV P S category orc n i k d s = (s', Ok d').
Proof.
  induction k as [|k IH]; intros i d s L Bd I; cbn [task_loop]; [exists s, d; reflexivity|].
  destruct (task_update_ok (Z.of_nat i) d s L Bd I) as (s1 & d1 & E & L1 & B1 & I1). rewrite (bind_ok _ _ _ _ _ E). now apply IH.
Qed.
Lemma run_task_ok w0 r tk ts up d0 k (s : st CV P S) : length (d_mean d0) = N -> d_bounds d0 = B -> Inv (st_out s) ->
  exists s' d', run_optimization_task CV P S category orc w0 r tk ts up d0 k n s = (s', Ok d').
Proof. intros L Bd I. unfold run_optimization_task. now apply task_loop_ok. Qed.
End Success.
