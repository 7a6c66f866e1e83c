(** Optimizations with bounded distributions never try parameters outside the bounds. *)
From Coq Require Import String Ascii NArith.
From Verif Require Import Base BaseLemmas SessionModel SessionSpec UpdatersModel UpdatersSpec UpdatersProofs4 UpdatersProofs5 LoopModel LoopSpec LoopProofs EquivSpec SafeSpec.
Open Scope string_scope.
Open Scope R_scope.

(** ** invariants of the loops *)
Section Inv.
Variables CV P S : Type.
Notation oval := (LoopModel.oval CV P).
Notation st := (LoopModel.st CV P S).
Notation M := (LoopModel.M CV P S).
Variable category : oval -> ext.
Variable orc : oracles CV S.
Variables (O : S -> Prop) (E : event CV -> Prop) (I : dist -> Prop) (X : list R -> Prop) (Y : mat -> Prop) (n : Z).
Hypothesis HY : forall m, Y m -> Forall X (mrows m).
Hypothesis Hmean : forall d, I d -> X (d_mean d).
Hypothesis Hgen : forall o d o' q, O o -> I d -> o_gen CV S orc o d n = (o', q) -> O o' /\ forall m, q = Ok m -> Y m /\ E (EGen d n m).
Hypothesis Heval : forall o x o' q, O o -> X x -> o_eval CV S orc o x = (o', q) -> O o' /\ forall c, q = Ok c -> E (EEval x c).
Hypothesis Hroll : forall o x o' q, O o -> X x -> o_roll CV S orc o x = (o', q) -> O o' /\ forall v, q = Ok v -> E (ERoll x v).
Hypothesis Hevalr : forall o v x o' q, O o -> X x -> o_evalr CV S orc o v x = (o', q) -> O o' /\ forall c, q = Ok c -> E (EEvalR v x c).
Hypothesis Hupd : forall o d m cs o' q, O o -> I d -> Y m -> o_upd CV S orc o d m cs = (o', q) ->
  O o' /\ forall d' w, q = Ok (d', w) -> I d' /\ E (EUpd d m cs d' w).

Definition tri {A} (m : M A) (Post : A -> Prop) : Prop := forall s s' r, m s = (s', r) -> O (st_out s) ->
  O (st_out s') /\ (forall e, In e (st_trace s') -> In e (st_trace s) \/ E e) /\ forall a, r = Ok a -> Post a.
Lemma tri_ret {A} (a : A) (Post : A -> Prop) : Post a -> tri (LoopModel.ret CV P S a) Post.
Proof. intros Ha s s' r H Ho. injection H as <- <-. split; [exact Ho|]. split; [auto|]. intros b Eb. now injection Eb as <-. Qed.
Lemma tri_bind {A B} (m : M A) (k : A -> M B) PA PB : tri m PA -> (forall a, PA a -> tri (k a) PB) -> tri (bindM CV P S m k) PB.
Proof.
  intros Hm Hk s s' r H Ho. unfold bindM in H. destruct (m s) as [s1 [a|er]] eqn:Em.
  - destruct (Hm s s1 _ Em Ho) as (O1 & T1 & P1). destruct (Hk a (P1 a eq_refl) s1 s' r H O1) as (O2 & T2 & P2).
    split; [exact O2|]. split; [|exact P2]. intros e He. destruct (T2 e He) as [H1|H1]; [exact (T1 e H1)|now right].
  - injection H as <- <-. destruct (Hm s s1 _ Em Ho) as (O1 & T1 & _). split; [exact O1|]. split; [exact T1|]. intros a Ea. discriminate.
Qed.
Lemma tri_call {A} (f : S -> S * res A) (ev : A -> event CV) (Post : A -> Prop) :
  (forall o o' q, O o -> f o = (o', q) -> O o' /\ forall a, q = Ok a -> Post a /\ E (ev a)) -> tri (call_out CV P S f ev) Post.
Proof.
  intros Hf s s' r H Ho. unfold call_out in H. destruct (f (st_out s)) as [o q] eqn:Ef. destruct (Hf _ _ _ Ho Ef) as (O1 & K).
  destruct q as [a|er]; injection H as <- <-; cbn [st_out st_trace].
  - destruct (K a eq_refl) as [Pa Ea]. split; [exact O1|]. split.
    + intros e He. apply in_app_or in He. destruct He as [He|[<-|[]]]; [now left|now right].
    + intros b Eb. now injection Eb as <-.
  - split; [exact O1|]. split; [auto|]. intros b Eb. discriminate.
Qed.
Lemma tri_db f : tri (on_db CV P S f) (fun _ => True).
Proof. intros s s' r H Ho. injection H as <- <-. split; [exact Ho|]. split; [auto|]. auto. Qed.
Lemma tri_any {A B} (m : M A) (k : M B) PB : tri m (fun _ => True) -> tri k PB -> tri (bindM CV P S m (fun _ => k)) PB.
Proof. intros H1 H2. apply (tri_bind _ _ _ _ H1). intros _ _. exact H2. Qed.
Lemma tri_roll x : X x -> tri (m_roll CV P S orc x) (fun _ => True).
Proof. intros Hx. apply tri_call. intros o o' q Ho Eo. destruct (Hroll _ _ _ _ Ho Hx Eo) as (O1 & K). split; [exact O1|]. auto. Qed.
Lemma tri_evalr v x : X x -> tri (m_evalr CV P S orc v x) (fun _ => True).
Proof. intros Hx. apply tri_call. intros o o' q Ho Eo. destruct (Hevalr _ _ _ _ _ Ho Hx Eo) as (O1 & K). split; [exact O1|]. auto. Qed.
Lemma tri_eval x : X x -> tri (m_eval CV P S orc x) (fun _ => True).
Proof. intros Hx. apply tri_call. intros o o' q Ho Eo. destruct (Heval _ _ _ _ Ho Hx Eo) as (O1 & K). split; [exact O1|]. auto. Qed.
Lemma tri_gen d : I d -> tri (m_gen CV P S orc d n) Y.
Proof. intros Hd. apply tri_call. intros o o' q Ho Eo. exact (Hgen _ _ _ _ Ho Hd Eo). Qed.
Lemma tri_upd d m cs : I d -> Y m -> tri (m_upd CV P S orc d m cs) (fun r => I (fst r)).
Proof.
  intros Hd Hm. apply tri_call. intros o o' q Ho Eo. destruct (Hupd _ _ _ _ _ _ Ho Hd Hm Eo) as (O1 & K). split; [exact O1|].
  intros [d' w] Eq. exact (K d' w Eq).
Qed.
Lemma tri_evals xs : Forall X xs -> tri (mapMM CV P S (m_eval CV P S orc) xs) (fun _ => True).
Proof.
  induction 1 as [|x xs Hx _ IH]; cbn [mapMM]; [now apply tri_ret|]. apply tri_bind with (PA := fun _ => True); [now apply tri_eval|].
  intros y _. apply tri_bind with (PA := fun _ => True); [exact IH|]. intros ys _. now apply tri_ret.
Qed.
Lemma tri_rollouts i xs : Forall X xs -> forall j, tri (rollouts CV P S category orc i j xs) (fun _ => True).
Proof.
  induction 1 as [|x xs Hx _ IH]; intros j; cbn [rollouts]; [now apply tri_ret|].
  apply tri_bind with (PA := fun _ => True); [now apply tri_roll|]. intros v _. apply tri_bind with (PA := fun _ => True); [now apply tri_evalr|]. intros c _.
  apply tri_any; [unfold add_rollout, m_tell; repeat (apply tri_any; [apply tri_db|]); apply tri_db|].
  apply tri_bind with (PA := fun _ => True); [apply IH|]. intros cs _. now apply tri_ret.
Qed.
Lemma tri_opt k : forall i d, I d -> tri (opt_loop CV P S category orc n i k d) I.
Proof.
  induction k as [|k IH]; intros i d Hd; cbn [opt_loop]; [now apply tri_ret|].
  apply tri_bind with (PA := I); [|intros d' Hd'; now apply IH]. unfold opt_update.
  apply tri_bind with (PA := fun _ => True); [now apply tri_eval, Hmean|]. intros c _. apply (tri_bind _ _ _ _ (tri_gen d Hd)). intros m Hm.
  apply tri_bind with (PA := fun _ => True); [now apply tri_evals, HY|]. intros cs _. apply (tri_bind _ _ _ _ (tri_upd d m cs Hd Hm)). intros r Hr.
  apply tri_any; [apply tri_db|]. apply tri_any; [apply tri_db|]. now apply tri_ret.
Qed.
Lemma tri_task k : forall i d, I d -> tri (task_loop CV P S category orc n i k d) I.
Proof.
  induction k as [|k IH]; intros i d Hd; cbn [task_loop]; [now apply tri_ret|].
  apply tri_bind with (PA := I); [|intros d' Hd'; now apply IH]. unfold task_update.
  apply tri_bind with (PA := fun _ => True); [now apply tri_roll, Hmean|]. intros v _. apply tri_bind with (PA := fun _ => True); [now apply tri_evalr, Hmean|]. intros c _.
  apply tri_any; [unfold add_eval_task, m_tell; apply tri_any; apply tri_db|]. apply (tri_bind _ _ _ _ (tri_gen d Hd)). intros m Hm.
  apply tri_bind with (PA := fun _ => True); [now apply tri_rollouts, HY|]. intros cs _. apply (tri_bind _ _ _ _ (tri_upd d m cs Hd Hm)). intros r Hr.
  apply tri_any; [apply tri_db|]. now apply tri_ret.
Qed.
Lemma run_inv w0 r cf up d0 k s s' q : run_optimization CV P S category orc w0 r cf up d0 k n s = (s', q) -> O (st_out s) -> I d0 ->
  (forall e, In e (st_trace s') -> In e (st_trace s) \/ E e) /\ forall d', q = Ok d' -> I d'.
Proof. intros H Ho Hd. exact (proj2 (tri_opt k 0%nat d0 Hd _ _ _ H Ho)). Qed.
Lemma run_task_inv w0 r tk ts up d0 k s s' q : run_optimization_task CV P S category orc w0 r tk ts up d0 k n s = (s', q) -> O (st_out s) -> I d0 ->
  (forall e, In e (st_trace s') -> In e (st_trace s) \/ E e) /\ forall d', q = Ok d' -> I d'.
Proof. intros H Ho Hd. exact (proj2 (tri_task k 0%nat d0 Hd _ _ _ H Ho)). Qed.
End Inv.

(** ** parameters outside an invariant do not matter *)
Section Agree.
Variables CV P S : Type.
Notation oval := (LoopModel.oval CV P).
Notation M := (LoopModel.M CV P S).
Variable category : oval -> ext.
Variables orc orc' : oracles CV S.
Variables (I : dist -> Prop) (X : list R -> Prop) (Y : mat -> Prop) (n : Z).
Hypothesis HY : forall m, Y m -> Forall X (mrows m).
Hypothesis Hmean : forall d, I d -> X (d_mean d).
Hypothesis Ggen : forall o d, o_gen CV S orc o d n = o_gen CV S orc' o d n.
Hypothesis Gupd : forall o d m cs, o_upd CV S orc o d m cs = o_upd CV S orc' o d m cs.
Hypothesis Geval : forall o x, X x -> o_eval CV S orc o x = o_eval CV S orc' o x.
Hypothesis Groll : forall o x, X x -> o_roll CV S orc o x = o_roll CV S orc' o x.
Hypothesis Gevalr : forall o v x, X x -> o_evalr CV S orc o v x = o_evalr CV S orc' o v x.
Hypothesis Hgen : forall o d o' m, I d -> o_gen CV S orc o d n = (o', Ok m) -> Y m.
Hypothesis Hupd : forall o d m cs o' d' w, I d -> Y m -> o_upd CV S orc o d m cs = (o', Ok (d', w)) -> I d'.

Definition agree {A} (m m' : M A) (Post : A -> Prop) : Prop := forall s, m s = m' s /\ forall s' a, m s = (s', Ok a) -> Post a.
Lemma agree_refl {A} (m : M A) : agree m m (fun _ => True).
Proof. intros s. split; [reflexivity|auto]. Qed.
Lemma agree_ret {A} (a : A) (Post : A -> Prop) : Post a -> agree (LoopModel.ret CV P S a) (LoopModel.ret CV P S a) Post.
Proof. intros Ha s. split; [reflexivity|]. intros s' b H. now injection H as _ <-. Qed.
Lemma agree_bind {A B} (m m' : M A) (k k' : A -> M B) PA PB : agree m m' PA -> (forall a, PA a -> agree (k a) (k' a) PB) ->
  agree (bindM CV P S m k) (bindM CV P S m' k') PB.
Proof.
  intros Hm Hk s. destruct (Hm s) as [E1 P1]. unfold bindM. rewrite <- E1. destruct (m s) as [s1 [a|er]].
  - exact (Hk a (P1 _ _ eq_refl) s1).
  - split; [reflexivity|]. intros s' b H. discriminate.
Qed.
Lemma agree_call {A} (f f' : S -> S * res A) ev (Post : A -> Prop) : (forall o, f o = f' o) -> (forall o o' a, f o = (o', Ok a) -> Post a) ->
  agree (call_out CV P S f ev) (call_out CV P S f' ev) Post.
Proof.
  intros Hf Hp s. unfold call_out. rewrite <- Hf. split; [reflexivity|]. intros s' a H. destruct (f (st_out s)) as [o [b|er]] eqn:Ef; [|discriminate].
  injection H as _ <-. exact (Hp _ _ _ Ef).
Qed.
Lemma agree_roll x : X x -> agree (m_roll CV P S orc x) (m_roll CV P S orc' x) (fun _ => True).
Proof. intros Hx. apply agree_call; auto. Qed.
Lemma agree_evalr v x : X x -> agree (m_evalr CV P S orc v x) (m_evalr CV P S orc' v x) (fun _ => True).
Proof. intros Hx. apply agree_call; auto. Qed.
Lemma agree_eval x : X x -> agree (m_eval CV P S orc x) (m_eval CV P S orc' x) (fun _ => True).
Proof. intros Hx. apply agree_call; auto. Qed.
Lemma agree_gen d : I d -> agree (m_gen CV P S orc d n) (m_gen CV P S orc' d n) Y.
Proof. intros Hd. apply agree_call; [auto|]. intros o o' m H. exact (Hgen _ _ _ _ Hd H). Qed.
Lemma agree_upd d m cs : I d -> Y m -> agree (m_upd CV P S orc d m cs) (m_upd CV P S orc' d m cs) (fun r => I (fst r)).
Proof. intros Hd Hm. apply agree_call; [auto|]. intros o o' [d' w] H. exact (Hupd _ _ _ _ _ _ _ Hd Hm H). Qed.
Lemma agree_evals xs : Forall X xs -> agree (mapMM CV P S (m_eval CV P S orc) xs) (mapMM CV P S (m_eval CV P S orc') xs) (fun _ => True).
Proof.
  induction 1 as [|x xs Hx _ IH]; cbn [mapMM]; [now apply agree_ret|]. apply (agree_bind _ _ _ _ _ _ (agree_eval x Hx)). intros y _.
  apply (agree_bind _ _ _ _ _ _ IH). intros ys _. now apply agree_ret.
Qed.
Lemma agree_rollouts i xs : Forall X xs -> forall j, agree (rollouts CV P S category orc i j xs) (rollouts CV P S category orc' i j xs) (fun _ => True).
Proof.
  induction 1 as [|x xs Hx _ IH]; intros j; cbn [rollouts]; [now apply agree_ret|]. apply (agree_bind _ _ _ _ _ _ (agree_roll x Hx)). intros v _.
  apply (agree_bind _ _ _ _ _ _ (agree_evalr v x Hx)). intros c _. apply (agree_bind _ _ _ _ _ _ (agree_refl _)). intros _ _.
  apply (agree_bind _ _ _ _ _ _ (IH _)). intros cs _. now apply agree_ret.
Qed.
Lemma agree_opt k : forall i d, I d -> agree (opt_loop CV P S category orc n i k d) (opt_loop CV P S category orc' n i k d) (fun _ => True).
Proof.
  induction k as [|k IH]; intros i d Hd; cbn [opt_loop]; [now apply agree_ret|].
  apply agree_bind with (PA := I); [|intros d' Hd'; now apply IH]. unfold opt_update.
  apply (agree_bind _ _ _ _ _ _ (agree_eval _ (Hmean d Hd))). intros c _. apply (agree_bind _ _ _ _ _ _ (agree_gen d Hd)). intros m Hm.
  apply (agree_bind _ _ _ _ _ _ (agree_evals _ (HY _ Hm))). intros cs _. apply (agree_bind _ _ _ _ _ _ (agree_upd d m cs Hd Hm)). intros r Hr.
  apply (agree_bind _ _ _ _ _ _ (agree_refl _)). intros _ _. apply (agree_bind _ _ _ _ _ _ (agree_refl _)). intros _ _. now apply agree_ret.
Qed.
Lemma agree_task k : forall i d, I d -> agree (task_loop CV P S category orc n i k d) (task_loop CV P S category orc' n i k d) (fun _ => True).
Proof.
  induction k as [|k IH]; intros i d Hd; cbn [task_loop]; [now apply agree_ret|].
  apply agree_bind with (PA := I); [|intros d' Hd'; now apply IH]. unfold task_update.
  apply (agree_bind _ _ _ _ _ _ (agree_roll _ (Hmean d Hd))). intros v _. apply (agree_bind _ _ _ _ _ _ (agree_evalr v _ (Hmean d Hd))). intros c _.
  apply (agree_bind _ _ _ _ _ _ (agree_refl _)). intros _ _. apply (agree_bind _ _ _ _ _ _ (agree_gen d Hd)). intros m Hm.
  apply (agree_bind _ _ _ _ _ _ (agree_rollouts _ _ (HY _ Hm) 0%nat)). intros cs _. apply (agree_bind _ _ _ _ _ _ (agree_upd d m cs Hd Hm)). intros r Hr.
  apply (agree_bind _ _ _ _ _ _ (agree_refl _)). intros _ _. now apply agree_ret.
Qed.
End Agree.

(** ** bounded distributions *)
Section Bounded.
Variable argsort : list R -> list nat.
Hypothesis Hsort : argsort_ok argsort.
Variables (lo up : bound) (N : nat).
Hypothesis Hord : ordered lo up.

Lemma gen_inside (raw s : mat) d n : mat_wf raw -> mcols raw = length (d_mean d) -> bounded_dist lo up N d ->
  generate_samples (fun _ _ _ => raw) d n = Ok s -> Forall (inside lo up N) (mrows s) /\ mat_wf s /\ mcols s = N.
Proof.
  intros W C (B & L & _) E. destruct (generate_bounded (fun _ _ _ => raw) d n lo up s B Hord W E) as (W' & Rn & Cn & K). cbv beta in *.
  assert (CN : mcols s = N) by congruence. split; [|split; [exact W'|exact CN]]. apply Forall_forall. intros row Hr.
  destruct (In_nth _ _ [] Hr) as (i & Hi & <-). split.
  - rewrite <- CN. unfold mat_wf in W'. rewrite Forall_forall in W'. apply W'. exact Hr.
  - intros j Hj. destruct (K i j Hi ltac:(congruence)) as (A & Bl & _). split; [exact A|exact Bl].
Qed.
Lemma avg_low n w (x : nat -> R) l : simplex n w -> (forall i, (i < n)%nat -> l <= x i) -> l <= sumn n (fun i => nth i w 0 * x i).
Proof.
  intros (Lw & Pw & Sw) H. rewrite rsum_nth, Lw in Sw. replace l with (sumn n (fun i => nth i w 0 * l)) by (rewrite sumn_scal_r, Sw; ring).
  apply sumn_le. intros i Hi. apply Rmult_le_compat_l; [apply Pw, nth_In; lia|now apply H].
Qed.
Lemma avg_high n w (x : nat -> R) l : simplex n w -> (forall i, (i < n)%nat -> x i <= l) -> sumn n (fun i => nth i w 0 * x i) <= l.
Proof.
  intros (Lw & Pw & Sw) H. rewrite rsum_nth, Lw in Sw. replace l with (sumn n (fun i => nth i w 0 * l)) by (rewrite sumn_scal_r, Sw; ring).
  apply sumn_le. intros i Hi. apply Rmult_le_compat_l; [apply Pw, nth_In; lia|now apply H].
Qed.
Lemma above_avg b n w (x : nat -> R) j : simplex n w -> (forall i, (i < n)%nat -> above b j (x i)) -> above b j (sumn n (fun i => nth i w 0 * x i)).
Proof.
  intros Sx H. destruct b as [|r|[|r [|r' l]]]; cbn [above] in *; try exact Logic.I; try (apply avg_low; [exact Sx|intros i Hi; now apply H]).
  all: intros q Hq; apply avg_low; [exact Sx|]; intros i Hi; exact (H i Hi q Hq).
Qed.
Lemma below_avg b n w (x : nat -> R) j : simplex n w -> (forall i, (i < n)%nat -> below b j (x i)) -> below b j (sumn n (fun i => nth i w 0 * x i)).
Proof.
  intros Sx H. destruct b as [|r|[|r [|r' l]]]; cbn [below] in *; try exact Logic.I; try (apply avg_high; [exact Sx|intros i Hi; now apply H]).
  all: intros q Hq; apply avg_high; [exact Sx|]; intros i Hi; exact (H i Hi q Hq).
Qed.
(** the mean of samples inside the bounds is inside the bounds *)
Lemma upd_inside u d s cs d' w : mcols s = N -> bounded_dist lo up N d -> Forall (inside lo up N) (mrows s) ->
  update_distribution argsort u d s cs = Ok (d', w) -> bounded_dist lo up N d'.
Proof.
  intros C (B & L & _) F E. destruct (update_mean_formula argsort Hsort u d s cs d' w E) as (Sx & _ & Lm & Fm). destruct (update_inv _ _ _ _ _ _ _ E) as (_ & _ & Eb).
  split; [congruence|]. split; [congruence|]. intros j Hj. rewrite Fm by congruence. rewrite Forall_forall in F.
  assert (K : forall i, (i < nrows s)%nat -> above lo j (mget s i j) /\ below up j (mget s i j)) by (intros i Hi; exact (proj2 (F _ (nth_In _ [] Hi)) j Hj)).
  split; [apply above_avg|apply below_avg]; trivial; intros i Hi; now apply K.
Qed.

Definition drawn (m : mat) : Prop := Forall (inside lo up N) (mrows m) /\ mcols m = N.
Variables (CV P S : Type) (category : LoopModel.oval CV P -> ext) (rng : S -> list R -> mat -> Z -> S * res mat) (u : updater).
Hypothesis Hrng : sized rng.
Notation orc ev rl er := (bbo_oracles (CV := CV) rng ev argsort u rl er).
Lemma bbo_gen ev rl er o d n o' m : bounded_dist lo up N d -> o_gen CV S (orc ev rl er) o d n = (o', Ok m) -> drawn m.
Proof.
  intros Hd E. cbn [bbo_oracles o_gen] in E. destruct (rng o (d_mean d) (d_covar d) n) as [g q] eqn:Er. destruct q as [raw|]; [|discriminate].
  destruct (Hrng _ _ _ _ _ _ Er) as [W C]. injection E as _ E. destruct (gen_inside raw m d _ W C Hd E) as (F & _ & Cm). now split.
Qed.
Lemma bbo_upd ev rl er o d m cs o' d' w : bounded_dist lo up N d -> drawn m -> o_upd CV S (orc ev rl er) o d m cs = (o', Ok (d', w)) -> bounded_dist lo up N d'.
Proof. intros Hd [Hm Cm] E. cbn [bbo_oracles o_upd] in E. injection E as _ E. exact (upd_inside u d m cs d' w Cm Hd Hm E). Qed.

(** an invariant of the world and of rollouts *)
Lemma world_inv (O : S -> Prop) (Q : list R -> CV -> Prop) ev rl er n :
  (forall o mean C, O o -> O (fst (rng o mean C n))) -> (forall o x, O o -> O (fst (ev o x))) -> (forall o v x, O o -> O (fst (er o v x))) ->
  (forall o x o' q, O o -> inside lo up N x -> rl o x = (o', q) -> O o' /\ forall v, q = Ok v -> Q x v) ->
  forall w0 r tk ts upd d0 k s s' q, run_optimization_task CV P S category (orc ev rl er) w0 r tk ts upd d0 k n s = (s', q) -> O (st_out s) -> bounded_dist lo up N d0 ->
  (forall e, In e (st_trace s') -> In e (st_trace s) \/ (event_inside lo up N e /\ match e with ERoll x v => Q x v | _ => True end)) /\
  forall d', q = Ok d' -> bounded_dist lo up N d'.
Proof.
  intros H1 H2 H3 H4 w0 r tk ts upd d0 k s s' q. apply run_task_inv with (X := inside lo up N) (Y := drawn).
  - now intros m [Hm _].
  - now intros d [_ Hd].
  - intros o d o' q0 Ho Hd Eo. split.
    + specialize (H1 o (d_mean d) (d_covar d) Ho). cbn [bbo_oracles o_gen] in Eo. destruct (rng o (d_mean d) (d_covar d) n). now injection Eo as <- _.
    + intros m ->. pose proof (bbo_gen ev rl er o d n o' m Hd Eo) as Dm. split; [exact Dm|]. split; [split; [exact Hd|exact (proj1 Dm)]|exact Logic.I].
  - intros o x o' q0 Ho Hx Eo. cbn [bbo_oracles o_roll] in Eo. destruct (H4 o x o' q0 Ho Hx Eo) as [O1 K]. split; [exact O1|]. intros v Ev. split; [exact Hx|exact (K v Ev)].
  - intros o v x o' q0 Ho Hx Eo. specialize (H3 o v x Ho). cbn [bbo_oracles o_evalr] in Eo. rewrite Eo in H3. split; [exact H3|]. intros c _. split; [exact Hx|exact Logic.I].
  - intros o d m cs o' q0 Ho Hd Hm Eo. split; [cbn [bbo_oracles o_upd] in Eo; now injection Eo as <- _|]. intros d' w ->.
    pose proof (bbo_upd ev rl er o d m cs o' d' w Hd Hm Eo) as Hd'. split; [exact Hd'|]. split; [split; [exact Hd|split; [exact (proj1 Hm)|exact Hd']]|exact Logic.I].
Qed.
Theorem task_bounded ev rl er w0 r tk ts upd d0 k n s s' q : run_optimization_task CV P S category (orc ev rl er) w0 r tk ts upd d0 k n s = (s', q) -> bounded_dist lo up N d0 ->
  (forall e, In e (st_trace s') -> In e (st_trace s) \/ event_inside lo up N e) /\ forall d', q = Ok d' -> bounded_dist lo up N d'.
Proof.
  intros E Hd.
  assert (W : (forall e, In e (st_trace s') -> In e (st_trace s) \/ (event_inside lo up N e /\ match e with ERoll x v => True | _ => True end)) /\ forall d', q = Ok d' -> bounded_dist lo up N d').
  { refine (world_inv (fun _ => True) (fun _ _ => True) ev rl er n _ _ _ _ w0 r tk ts upd d0 k s s' q E Logic.I Hd); auto. }
  destruct W as [T D].
  split; [|exact D]. intros e He. destruct (T e He) as [H|[H _]]; auto.
Qed.
Theorem opt_bounded ev rl er w0 r cf upd d0 k n s s' q : run_optimization CV P S category (orc ev rl er) w0 r cf upd d0 k n s = (s', q) -> bounded_dist lo up N d0 ->
  (forall e, In e (st_trace s') -> In e (st_trace s) \/ event_inside lo up N e) /\ forall d', q = Ok d' -> bounded_dist lo up N d'.
Proof.
  intros E Hd0. refine (run_inv CV P S category (orc ev rl er) (fun _ => True) (event_inside lo up N) (bounded_dist lo up N) (inside lo up N) drawn n _ _ _ _ _ w0 r cf upd d0 k s s' q E Logic.I Hd0).
  - now intros m [Hm _].
  - now intros d [_ Hd].
  - intros o d o' q0 _ Hd Eo. split; [exact Logic.I|]. intros m ->. pose proof (bbo_gen ev rl er o d n o' m Hd Eo) as Dm. split; [exact Dm|]. split; [exact Hd|exact (proj1 Dm)].
  - intros o x o' q0 _ Hx _. auto.
  - intros o d m cs o' q0 _ Hd Hm Eo. split; [exact Logic.I|]. intros d' w ->.
    pose proof (bbo_upd ev rl er o d m cs o' d' w Hd Hm Eo) as Hd'. split; [exact Hd'|]. split; [exact Hd|split; [exact (proj1 Hm)|exact Hd']].
Qed.
(** what user code does outside the bounds does not matter *)
Theorem task_outside ev rl er rl' er' w0 r tk ts upd d0 k n s : bounded_dist lo up N d0 ->
  (forall o x, inside lo up N x -> rl o x = rl' o x) -> (forall o v x, inside lo up N x -> er o v x = er' o v x) ->
  run_optimization_task CV P S category (orc ev rl er) w0 r tk ts upd d0 k n s = run_optimization_task CV P S category (orc ev rl' er') w0 r tk ts upd d0 k n s.
Proof.
  intros Hd H1 H2. unfold run_optimization_task. apply (agree_task CV P S category (orc ev rl er) (orc ev rl' er') (bounded_dist lo up N) (inside lo up N) drawn n); auto.
  - now intros m [Hm _].
  - now intros d [_ Hd1].
  - intros o d o' m. apply bbo_gen.
  - intros o d m cs o' d' w. apply bbo_upd.
Qed.
Theorem opt_outside ev ev' rl er w0 r cf upd d0 k n s : bounded_dist lo up N d0 -> (forall o x, inside lo up N x -> ev o x = ev' o x) ->
  run_optimization CV P S category (orc ev rl er) w0 r cf upd d0 k n s = run_optimization CV P S category (orc ev' rl er) w0 r cf upd d0 k n s.
Proof.
  intros Hd H1. unfold run_optimization. apply (agree_opt CV P S category (orc ev rl er) (orc ev' rl er) (bounded_dist lo up N) (inside lo up N) drawn n); auto.
  - now intros m [Hm _].
  - now intros d [_ Hd1].
  - intros o d o' m. apply bbo_gen.
  - intros o d m cs o' d' w. apply bbo_upd.
Qed.
End Bounded.
