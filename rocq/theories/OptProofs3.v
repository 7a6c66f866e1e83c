(** Proofs about improvement by updates: whole optimizations. *)
From Coq Require Import String Ascii NArith.
From Verif Require Import Base BaseLemmas DynModel SessionModel SessionSpec UpdatersModel UpdatersSpec UpdatersProofs UpdatersProofs2 UpdatersProofs3 UpdatersProofs4 UpdatersProofs5
  LoopModel LoopSpec LoopProofs LoopProofs2 LoopProofs3 LoopProofs4 OptModel OptSpec OptProofs OptProofs2.
Open Scope R_scope.

Section U.
Variable argsort : list R -> list nat.
Hypothesis Hsort : argsort_ok argsort.
Lemma update_weights u d s c d' w : update_distribution argsort u d s c = Ok (d', w) -> costs_to_weights argsort c (u_method u) (u_elit u) = Ok w.
Proof. intros E. now apply (update_inv argsort) in E. Qed.
Lemma update_convex u d s c d' w f : mat_wf s -> convex (mcols s) f -> prefers_low (u_method u) (u_elit u) -> costs_by f s c ->
  update_distribution argsort u d s c = Ok (d', w) ->
  f (d_mean d') <= weighted w (map f (mrows s)) <= average (map f (mrows s)).
Proof.
  intros W C P T E. split; [now apply (jensen argsort Hsort u d s c d' w)|].
  assert (N : c <> []) by exact (update_nonempty argsort Hsort u d s c d' w E).
  exact (weighted_le argsort Hsort c (map f (mrows s)) (u_method u) (u_elit u) w N T P (update_weights u d s c d' w E)).
Qed.
Lemma chained_next {A} (before after : A -> dist) : forall us d dl i a b, chained before after d us dl ->
  nth_error us i = Some a -> nth_error us (S i) = Some b -> before b = after a.
Proof.
  induction us as [|x us IH]; intros d dl i a b C Ha Hb; [destruct i; discriminate|]. cbn in C. destruct C as [C1 C2]. destruct i as [|i].
  - cbn in Ha. injection Ha as <-. destruct us as [|y us]; [discriminate|]. cbn in Hb. injection Hb as <-. now destruct C2.
  - exact (IH _ _ i a b C2 Ha Hb).
Qed.
Lemma chained_last {A} (before after : A -> dist) : forall us d dl i a, chained before after d us dl ->
  nth_error us i = Some a -> S i = length us -> after a = dl.
Proof.
  induction us as [|x us IH]; intros d dl i a C Ha Hi; [destruct i; discriminate|]. cbn in C. destruct C as [C1 C2]. destruct i as [|i].
  - cbn in Ha. injection Ha as <-. destruct us; [now cbn in C2|discriminate].
  - apply (IH _ _ i a C2 Ha). cbn in Hi. lia.
Qed.
Lemma totals_map2 f : forall (xs : list (list R)) cs, length cs = length xs -> (forall i x c, nth_error xs i = Some x -> nth_error cs i = Some c -> has_total c (f x)) ->
  totals cs (map f xs).
Proof.
  induction xs as [|x xs IH]; intros [|c cs] L H; try discriminate; [constructor|]. cbn. constructor; [now apply (H 0%nat)|].
  apply IH; [now injection L|]. intros i. apply (H (S i)).
Qed.
Lemma map2_in {A B C} (g : A -> B -> C) : forall xs ys i x y, nth_error xs i = Some x -> nth_error ys i = Some y -> In (g x y) (map2 g xs ys).
Proof. induction xs as [|a xs IH]; intros [|b ys] [|i] x y Hx Hy; try discriminate; cbn in *; [left; congruence|right; eauto]. Qed.

Lemma combine_nth_error_inv {A B} : forall (xs : list A) (ys : list B) i x y, nth_error (combine xs ys) i = Some (x, y) -> nth_error xs i = Some x /\ nth_error ys i = Some y.
Proof. induction xs as [|a xs IH]; intros [|b ys] [|i] x y H; try discriminate; cbn in *; [injection H as -> ->; auto|now apply IH]. Qed.
Lemma combine_nth_error_intro {A B} : forall (xs : list A) (ys : list B) i x y, nth_error xs i = Some x -> nth_error ys i = Some y -> nth_error (combine xs ys) i = Some (x, y).
Proof. induction xs as [|a xs IH]; intros [|b ys] [|i] x y H H'; try discriminate; cbn in *; [congruence|now apply IH]. Qed.
Lemma event_of CV (n : Z) (us : list upd_rec) a e : In a us -> In e (@events_of CV n a) -> In e (flat_map (events_of n) us).
Proof. intros. apply in_flat_map. eauto. Qed.


(** one record of an optimization, from the calls it stands for *)
Lemma record_improves CV S (orc : oracles CV S) u f N n a :
  (forall o d m cs o' r, o_upd _ _ orc o d m cs = (o', Ok r) -> update_distribution argsort u d m cs = Ok r) ->
  (forall o d o' m, o_gen _ _ orc o d n = (o', Ok m) -> mat_wf m /\ mcols m = length (d_mean d)) ->
  prefers_low (u_method u) (u_elit u) -> convex N f -> totals (u_costs a) (map f (mrows (u_samples a))) ->
  genuine orc (EUpd (u_dist a) (u_samples a) (u_costs a) (u_new a) (u_weights a)) -> genuine orc (EGen (u_dist a) n (u_samples a)) ->
  length (d_mean (u_dist a)) = N -> improves f a.
Proof.
  intros Hu Hg P C T (o & o' & E) (o1 & o1' & E1) L. split; [exact T|]. destruct (Hg _ _ _ _ E1) as [W Hc]. rewrite L in Hc.
  apply (update_convex u (u_dist a) (u_samples a) (u_costs a) (u_new a) (u_weights a) f W); [now rewrite Hc|exact P|exact T|]. exact (Hu _ _ _ _ _ _ E).
Qed.
Lemma record_length CV S (orc : oracles CV S) u n a :
  (forall o d m cs o' r, o_upd _ _ orc o d m cs = (o', Ok r) -> update_distribution argsort u d m cs = Ok r) ->
  (forall o d o' m, o_gen _ _ orc o d n = (o', Ok m) -> mat_wf m /\ mcols m = length (d_mean d)) ->
  genuine orc (EUpd (u_dist a) (u_samples a) (u_costs a) (u_new a) (u_weights a)) -> genuine orc (EGen (u_dist a) n (u_samples a)) ->
  length (d_mean (u_new a)) = length (d_mean (u_dist a)).
Proof.
  intros Hu Hg (o & o' & E) (o1 & o1' & E1). destruct (Hg _ _ _ _ E1) as [W Hc]. rewrite <- Hc.
  now apply (update_mean_formula argsort Hsort u _ _ _ _ _ (Hu _ _ _ _ _ _ E)).
Qed.
Lemma chained_length {A} (before after : A -> dist) N : forall us d dl, chained before after d us dl -> length (d_mean d) = N ->
  (forall a, In a us -> length (d_mean (after a)) = length (d_mean (before a))) -> forall a, In a us -> length (d_mean (before a)) = N.
Proof.
  induction us as [|b us IH]; intros d dl Ch L H a Ha; [destruct Ha|]. cbn in Ch. destruct Ch as [E Ch]. destruct Ha as [<-|Ha]; [now rewrite E|].
  apply (IH _ _ Ch); [rewrite H, E; [exact L|now left]| |exact Ha]. intros c Hc. apply H. now right.
Qed.

Section Run.
Variables (CV P S : Type) (category : oval CV P -> ext) (load : ext -> oval CV P -> oval CV P) (orc : oracles CV S).
Variables (u : updater) (f : list R -> R) (N : nat) (n : Z).
Hypothesis Hu : forall o d m cs o' r, o_upd _ _ orc o d m cs = (o', Ok r) -> update_distribution argsort u d m cs = Ok r.
Hypothesis Hg : forall o d o' m, o_gen _ _ orc o d n = (o', Ok m) -> mat_wf m /\ mcols m = length (d_mean d).
Hypothesis Pl : prefers_low (u_method u) (u_elit u).
Hypothesis C : convex N f.

Lemma rows_length a : genuine orc (EGen (u_dist a) n (u_samples a)) -> forall x, In x (mrows (u_samples a)) -> length x = length (d_mean (u_dist a)).
Proof. intros (o & o' & E) x Hx. destruct (Hg _ _ _ _ E) as [W <-]. unfold mat_wf in W. rewrite Forall_forall in W. now apply W. Qed.
Lemma run_improves w0 r cf up d0 k (s s' : st CV P S) d' :
  (forall o x o' c, length x = N -> o_eval _ _ orc o x = (o', Ok c) -> has_total c (f x)) -> st_trace s = [] -> length (d_mean d0) = N ->
  run_optimization CV P S category orc w0 r cf up d0 k n s = (s', Ok d') ->
  exists us, length us = k /\ chained u_dist u_new d0 us d' /\
    (forall i a, nth_error us i = Some a -> opt_stored load (st_db s') i a) /\
    (forall a, In a us -> has_total (u_mean_cost a) (f (d_mean (u_dist a))) /\ improves f a).
Proof.
  intros He T0 LN E. pose proof (run_optimization_genuine CV P S category orc w0 r cf up d0 k n s s' (Ok d') E) as G.
  destruct (run_optimization_full CV P S category load orc w0 r cf up d0 k n s s' (Ok d') E) as (us & dl & rest & cs & Ch & Cm & Tr & St & _ & _ & L & -> & ->).
  rewrite app_nil_r, T0 in Tr. cbn [List.app] in Tr. exists us. split; [exact L|]. split; [exact Ch|]. split; [exact St|].
  assert (G1 : forall a, In a us -> forall e, In e (events_of n a) -> genuine orc e).
  { intros a Ha e Hev. destruct (G e) as [H|H]; [rewrite Tr; now apply (event_of CV n us a e)|rewrite T0 in H; destruct H|exact H]. }
  assert (Q : forall a, In a us -> genuine orc (EUpd (u_dist a) (u_samples a) (u_costs a) (u_new a) (u_weights a)) /\ genuine orc (EGen (u_dist a) n (u_samples a))).
  { intros a Ha. split; apply (G1 a Ha).
    - unfold events_of. apply in_or_app. right. apply in_or_app. right. now left.
    - right. now left. }
  intros a Ha. pose proof (G1 a Ha) as G'. destruct (Q a Ha) as [Q1 Q2].
  assert (LD : length (d_mean (u_dist a)) = N).
  { apply (chained_length u_dist u_new N us d0 dl Ch LN); [|exact Ha]. intros b Hb. destruct (Q b Hb). now apply (record_length CV S orc u n b Hu Hg). }
  pose proof (rows_length a Q2) as LR. rewrite LD in LR.
  rewrite Forall_forall in Cm. specialize (Cm a Ha). split.
  { destruct (G' (EEval (d_mean (u_dist a)) (u_mean_cost a))) as (o & o' & E1); [left; reflexivity|]. exact (He _ _ _ _ LD E1). }
  apply (record_improves CV S orc u f N n a Hu Hg Pl C).
  - apply totals_map2; [exact Cm|]. intros i x c Hx Hc. destruct (G' (EEval x c)) as (o & o' & E1).
    + unfold events_of. apply in_or_app. right. apply in_or_app. left. exact (map2_in EEval _ _ i x c Hx Hc).
    + exact (He _ _ _ _ (LR x (nth_error_In _ _ Hx)) E1).
  - exact Q1.
  - exact Q2.
  - exact LD.
Qed.
Lemma combine_nth_error {A B} : forall (xs : list A) (ys : list B) i y, length xs = length ys -> nth_error ys i = Some y ->
  exists x, nth_error (combine xs ys) i = Some (x, y).
Proof. induction xs as [|a xs IH]; intros [|b ys] [|i] y L H; try discriminate; cbn in *; [injection H as ->; eauto|apply IH; [lia|exact H]]. Qed.
Lemma run_task_improves w0 r tk ts0 up d0 k (s s' : st CV P S) d' :
  (forall o x o' v o1 o1' c, length x = N -> o_roll _ _ orc o x = (o', Ok v) -> o_evalr _ _ orc o1 v x = (o1', Ok c) -> has_total c (f x)) -> st_trace s = [] -> length (d_mean d0) = N ->
  run_optimization_task CV P S category orc w0 r tk ts0 up d0 k n s = (s', Ok d') ->
  exists ts, length ts = k /\ chained t_before t_after d0 ts d' /\
    (forall i t, nth_error ts i = Some t -> task_stored load (st_db s') i t) /\
    (forall t, In t ts -> has_total (u_mean_cost (t_upd t)) (f (d_mean (t_before t))) /\ improves f (t_upd t)).
Proof.
  intros He T0 LN E. pose proof (run_optimization_task_genuine CV P S category orc w0 r tk ts0 up d0 k n s s' (Ok d') E) as G.
  destruct (run_optimization_task_full CV P S category load orc w0 r tk ts0 up d0 k n s s' (Ok d') E) as (us & dl & rest & cs & es & Ch & Cm & Tr & St & _ & _ & _ & L & -> & -> & _).
  rewrite app_nil_r, T0 in Tr. cbn [List.app] in Tr. exists us. split; [exact L|]. split; [exact Ch|]. split; [exact St|].
  assert (G1 : forall t, In t us -> forall e, In e (task_events n t) -> genuine orc e).
  { intros t Ht e Hev. destruct (G e) as [H|H]; [rewrite Tr; apply in_flat_map; eauto|rewrite T0 in H; destruct H|exact H]. }
  assert (Q : forall t, In t us -> let a := t_upd t in genuine orc (EUpd (u_dist a) (u_samples a) (u_costs a) (u_new a) (u_weights a)) /\ genuine orc (EGen (u_dist a) n (u_samples a))).
  { intros t Ht. split; apply (G1 t Ht); unfold task_events.
    - do 3 (apply in_or_app; right). now left.
    - apply in_or_app. right. now left. }
  intros t Ht. set (a := t_upd t). pose proof (G1 t Ht) as G'. destruct (Q t Ht) as [Q1 Q2].
  assert (LD : length (d_mean (u_dist a)) = N).
  { apply (chained_length t_before t_after N us d0 dl Ch LN); [|exact Ht]. intros b Hb. destruct (Q b Hb). now apply (record_length CV S orc u n (t_upd b) Hu Hg). }
  pose proof (rows_length a Q2) as LR. rewrite LD in LR.
  rewrite Forall_forall in Cm. destruct (Cm t Ht) as [C1 C2].
  assert (K : forall x v c, In (x, (v, c)) (combine (mrows (u_samples a)) (combine (t_vars t) (u_costs a))) \/ (x = d_mean (u_dist a) /\ v = t_mean_vars t /\ c = u_mean_cost a) -> has_total c (f x)).
  { intros x v c Hx. assert (I : forall e, In e (rollout_events x (v, c)) -> genuine orc e).
    { intros e Hev. apply G'. unfold task_events. fold a. destruct Hx as [Hx|(-> & -> & ->)].
      - apply in_or_app. right. apply in_or_app. right. apply in_or_app. left. apply in_concat. exists (rollout_events x (v, c)). split; [|exact Hev].
        destruct (In_nth_error _ _ Hx) as [i Hi]. destruct (combine_nth_error_inv _ _ _ _ _ Hi) as [A B]. exact (map2_in rollout_events _ _ i x (v, c) A B).
      - apply in_or_app. now left. }
    destruct (I (ERoll x v)) as (o & o' & E1); [left; reflexivity|]. destruct (I (EEvalR v x c)) as (o1 & o1' & E2); [right; left; reflexivity|].
    assert (Lx : length x = N) by (destruct Hx as [Hx|(-> & _)]; [apply LR, (in_combine_l _ _ _ _ Hx)|exact LD]).
    exact (He _ _ _ _ _ _ _ Lx E1 E2). }
  split; [apply (K _ (t_mean_vars t)); right; auto|].
  apply (record_improves CV S orc u f N n a Hu Hg Pl C).
  - apply totals_map2; [exact C1|]. intros i x c Hx Hc.
    destruct (combine_nth_error (t_vars t) (u_costs a) i c) as [v Hv]; [|exact Hc|].
    { rewrite C2. symmetry. exact C1. }
    apply (K x v). left. apply (nth_error_In _ i). now apply combine_nth_error_intro.
  - exact Q1.
  - exact Q2.
  - exact LD.
Qed.
End Run.
End U.
