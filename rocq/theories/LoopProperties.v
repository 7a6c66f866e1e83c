(** Properties C26-C29 and C76: the optimization loops. CV: cost variables, P: DMPs, S: the rest of the
    world (random generator, simulator ...). [orc] are arbitrary samplers, cost functions, tasks, solvers
    and updaters, which may depend on and change S and may raise. *)
From Coq Require Import String Ascii NArith.
From Verif Require Import Base BaseLemmas SessionModel SessionSpec UpdatersModel LoopModel LoopSpec LoopProofs LoopProofs2
  LoopProofs3 LoopProofs4 LoopExamples.
Open Scope string_scope.

(** ** C26: for the calls that were made (C26_calls_were_made), there is a list of update records, chained
    from the initial distribution; each has been stored in the session under its index. *)
Theorem C26_chained_and_stored : forall CV P S category load orc w0 r cf up d0 k n (s s' : st CV P S) d',
  run_optimization CV P S category orc w0 r cf up d0 k n s = (s', Ok d') ->
  exists us, chained u_dist u_new d0 us d' /\ length us = k /\ Forall complete us /\
    st_trace s' = (st_trace s ++ flat_map (events_of n) us)%list /\
    forall i u, nth_error us i = Some u -> opt_stored load (st_db s') i u.
Proof.
  intros * H. destruct (run_optimization_full _ _ _ _ load _ _ _ _ _ _ _ _ _ _ _ H) as (us & dl & rest & cs & ? & ? & Tr & ? & _ & _ & ? & -> & ->).
  exists us. rewrite app_nil_r in Tr. auto.
Qed.
Print Assumptions C26_chained_and_stored.
(** an exception in update i leaves the updates before it stored *)
Theorem C26_exception : forall CV P S category load orc w0 r cf up d0 k n (s s' : st CV P S) e,
  run_optimization CV P S category orc w0 r cf up d0 k n s = (s', Err e) ->
  exists us dlast rest, chained u_dist u_new d0 us dlast /\ (length us < k)%nat /\ Forall complete us /\
    st_trace s' = (st_trace s ++ flat_map (events_of n) us ++ rest)%list /\ interrupted n dlast rest /\
    forall i u, nth_error us i = Some u -> opt_stored load (st_db s') i u.
Proof.
  intros * H. destruct (run_optimization_full _ _ _ _ load _ _ _ _ _ _ _ _ _ _ _ H) as (us & dl & rest & cs & ? & ? & ? & ? & _ & _ & ? & ?).
  exists us, dl, rest. auto 10.
Qed.
Print Assumptions C26_exception.
(** the records are about real calls: the samples are drawn from that distribution, the costs returned
    for that sample, the updated distribution by the updater for these samples and costs *)
Theorem C26_calls_were_made : forall CV P S category orc w0 r cf up d0 k n (s s' : st CV P S) res,
  run_optimization CV P S category orc w0 r cf up d0 k n s = (s', res) ->
  forall e, In e (st_trace s') -> In e (st_trace s) \/ genuine orc e.
Proof. exact run_optimization_genuine. Qed.
Print Assumptions C26_calls_were_made.

Example C26_case : outcome (x_run 100) = (None, 15, 24)%nat /\ outcome (x_run 4) = (Some ValueError, 7, 10)%nat.
Proof. split; vm_compute; reflexivity. Qed.

(** ** C27 *)
Theorem C27_cost_calls : forall CV P S category (load : ext -> oval CV P -> oval CV P) orc w0 r cf up d0 k n (s s' : st CV P S) d',
  (forall o d o' m, o_gen CV S orc o d n = (o', Ok m) -> length (mrows m) = Z.to_nat n) ->
  run_optimization CV P S category orc w0 r cf up d0 k n (St (st_out s) [] (st_db s)) = (s', Ok d') ->
  exists us, chained u_dist u_new d0 us d' /\ length us = k /\
    cost_calls (st_trace s') = flat_map (fun u => d_mean (u_dist u) :: mrows (u_samples u)) us /\
    Forall (fun u => length (mrows (u_samples u)) = Z.to_nat n) us /\
    length (cost_calls (st_trace s')) = (k * (Z.to_nat n + 1))%nat.
Proof. exact run_optimization_calls. Qed.
Print Assumptions C27_cost_calls.

Example C27_case : (forall o d o' m, o_gen _ _ (x_orc 100) o d 2 = (o', Ok m) -> length (mrows m) = 2%nat) /\
  outcome (x_run 100) = (None, 15, 24)%nat /\ length (cost_calls (st_trace (fst (x_run 100)))) = 9%nat.
Proof. split; [|split; vm_compute; reflexivity]. intros o d o' m H. injection H as _ <-. reflexivity. Qed.

(** ** C28 *)
Theorem C28_rollouts_stored : forall CV P S category load orc w0 r tk ts up d0 k n (s s' : st CV P S) d',
  run_optimization_task CV P S category orc w0 r tk ts up d0 k n s = (s', Ok d') ->
  exists us, chained t_before t_after d0 us d' /\ length us = k /\ Forall t_complete us /\
    st_trace s' = (st_trace s ++ flat_map (task_events n) us)%list /\
    forall i u, nth_error us i = Some u -> task_stored load (st_db s') i u.
Proof.
  intros * H. destruct (run_optimization_task_full _ _ _ _ load _ _ _ _ _ _ _ _ _ _ _ _ H) as (us & dl & rest & cs & es & ? & ? & Tr & ? & _ & _ & _ & ? & -> & -> & _).
  exists us. rewrite app_nil_r in Tr. auto.
Qed.
Print Assumptions C28_rollouts_stored.
Theorem C28_exception : forall CV P S category load orc w0 r tk ts up d0 k n (s s' : st CV P S) e,
  run_optimization_task CV P S category orc w0 r tk ts up d0 k n s = (s', Err e) ->
  exists us dlast rest, chained t_before t_after d0 us dlast /\ (length us < k)%nat /\ Forall t_complete us /\
    st_trace s' = (st_trace s ++ flat_map (task_events n) us ++ rest)%list /\ interrupted_task n dlast rest /\
    forall i u, nth_error us i = Some u -> task_stored load (st_db s') i u.
Proof.
  intros * H. destruct (run_optimization_task_full _ _ _ _ load _ _ _ _ _ _ _ _ _ _ _ _ H) as (us & dl & rest & cs & es & ? & ? & ? & ? & _ & _ & _ & ? & ?).
  exists us, dl, rest. auto 10.
Qed.
Print Assumptions C28_exception.
Theorem C28_calls_were_made : forall CV P S category orc w0 r tk ts up d0 k n (s s' : st CV P S) res,
  run_optimization_task CV P S category orc w0 r tk ts up d0 k n s = (s', res) ->
  forall e, In e (st_trace s') -> In e (st_trace s) \/ genuine orc e.
Proof. exact run_optimization_task_genuine. Qed.
Print Assumptions C28_calls_were_made.

Example C28_case : outcome (x_run_task 100) = (None, 24, 46)%nat /\ outcome (x_run_task 4) = (Some ValueError, 11, 21)%nat.
Proof. split; vm_compute; reflexivity. Qed.

(** ** C29. The world is a random generator and the DMP inside the task solver. [gen] is the random
    stream, [execute] runs a DMP. The session of the closed loop may be in memory or in a directory.
    The step-by-step optimization always needs a directory. *)
Definition same_updates {CV P S} (load : ext -> oval CV P -> oval CV P) k (s1 s2 : st CV P S) : Prop :=
  forall i nm, (i < k)%nat -> In nm ["distribution"; "samples"; "weights"; "distribution_new"] ->
  exists v, stored load (st_db s1) nm i INone v /\ stored load (st_db s2) nm i INone v.

Theorem C29_step_by_step : forall CV P G category load gen evaluate argsort u dmp_get dmp_set execute p0,
  (forall (p : P) x p', dmp_set p x = Ok p' -> dmp_get p' = x) ->
  (forall p x p' y, dmp_set p x = Ok p' -> dmp_set p' y = dmp_set p y) ->
  (forall (v : CV) x c, evaluate v x = Ok c -> exists r, cost0 c = Ok r) ->
  forall n, (forall (g : G) d g' m, gen g d n = (g', Ok m) -> length (mrows m) = Z.to_nat n) ->
  let orc := dmp_oracles gen evaluate (update_distribution argsort u) dmp_set execute in
  forall task updater wc rc tkc tsv upc d0 k g trc dbc s1 dlast w0 tsv2 tr db q s2 r,
  run_optimization_task CV P (G * P) category orc wc rc tkc tsv upc d0 k n (St (g, p0) trc dbc) = (s1, Ok dlast) ->
  bindM CV P (G * P) (prepare_optimization CV P (G * P) category load orc dmp_set w0 RDir task tsv2 updater d0 n p0)
    (fun _ => steps CV P (G * P) category load orc dmp_get dmp_set execute n 0 k) (St (g, q) tr db) = (s2, r) ->
  same_updates load k s1 s2.
Proof.
  intros until p0. intros H1 H2 H3 n H4 orc. intros * HA HB.
  exact (step_by_step_same CV P G category load gen evaluate (update_distribution argsort u) dmp_get dmp_set execute p0 H1 H2
          (updaters_total argsort u) H3 n H4 task updater wc rc tkc tsv upc d0 k g trc dbc s1 dlast w0 tsv2 tr db q s2 r HA HB).
Qed.
Print Assumptions C29_step_by_step.
(** and for any other updater that only uses the total costs *)
Theorem C29_step_by_step_any_updater : forall CV P G category load gen evaluate update dmp_get dmp_set execute p0,
  (forall (p : P) x p', dmp_set p x = Ok p' -> dmp_get p' = x) ->
  (forall p x p' y, dmp_set p x = Ok p' -> dmp_set p' y = dmp_set p y) ->
  (forall d m cs xs, Forall2 (fun c x => cost0 c = Ok x) cs xs -> update d m (map CScalar xs) = update d m cs) ->
  (forall (v : CV) x c, evaluate v x = Ok c -> exists r, cost0 c = Ok r) ->
  forall n, (forall (g : G) d g' m, gen g d n = (g', Ok m) -> length (mrows m) = Z.to_nat n) ->
  let orc := dmp_oracles gen evaluate update dmp_set execute in
  forall task updater wc rc tkc tsv upc d0 k g trc dbc s1 dlast w0 tsv2 tr db q s2 r,
  run_optimization_task CV P (G * P) category orc wc rc tkc tsv upc d0 k n (St (g, p0) trc dbc) = (s1, Ok dlast) ->
  bindM CV P (G * P) (prepare_optimization CV P (G * P) category load orc dmp_set w0 RDir task tsv2 updater d0 n p0)
    (fun _ => steps CV P (G * P) category load orc dmp_get dmp_set execute n 0 k) (St (g, q) tr db) = (s2, r) ->
  same_updates load k s1 s2.
Proof. exact step_by_step_same. Qed.
Print Assumptions C29_step_by_step_any_updater.

(** three updates with two samples each; both loops succeed *)
Example C29_case :
  (forall p x p', y_set p x = Ok p' -> p' = x) /\ (forall p x p' y, y_set p x = Ok p' -> y_set p' y = y_set p y) /\
  (forall d m cs xs, Forall2 (fun c x => cost0 c = Ok x) cs xs -> y_update d m (map CScalar xs) = y_update d m cs) /\
  (forall v x c, y_evaluate v x = Ok c -> exists r, cost0 c = Ok r) /\
  (forall g d g' m, y_gen g d 2 = (g', Ok m) -> length (mrows m) = 2%nat) /\
  outcome y_closed = (None, 24, 0)%nat /\ outcome y_stepwise = (None, 16, 74)%nat.
Proof.
  split; [unfold y_set; intros p x p'; destruct (Nat.eqb (length x) 1); congruence|].
  split; [reflexivity|]. split; [exact y_update_total|].
  split; [intros v x c H; injection H as <-; eexists; reflexivity|].
  split; [intros g d g' m H; injection H as _ <-; reflexivity|].
  split; vm_compute; reflexivity.
Qed.

(** ** C76: after the loop has ended, normally or with an exception at any point, the directory can be
    opened and holds every completed update, as loaded from its files. *)
Theorem C76_reopen_after_exception : forall CV P S category load to_int orc w0 cf up d0 k n (s s' : st CV P S) res heap ow,
  d_files (w_disk w0) = [] ->
  (forall m, category (OInt m) = Txt) -> (forall m, to_int (load Txt (OInt m)) = Some m) ->
  run_optimization CV P S category orc w0 RDir cf up d0 k n s = (s', res) ->
  exists us dlast rest w1 s1,
    chained u_dist u_new d0 us dlast /\
    st_trace s' = (st_trace s ++ flat_map (events_of n) us ++ rest)%list /\
    match res with
    | Ok d' => length us = k /\ d' = dlast /\ rest = []
    | Err _ => (length us < k)%nat /\ interrupted n dlast rest
    end /\
    from_dir category load OInt to_int (World heap (w_disk (fst (st_db s'))) ow) = Ok (w1, s1) /\ s_n s1 = n /\
    forall asks i u, only_asks asks -> nth_error us i = Some u ->
      opt_reloaded category load (run category load (w1, s1) asks) i u.
Proof. exact run_optimization_reopen. Qed.
Print Assumptions C76_reopen_after_exception.
Theorem C76_reopen_task_after_exception : forall CV P S category load to_int orc w0 tk tsv up d0 k n (s s' : st CV P S) res heap ow,
  d_files (w_disk w0) = [] ->
  (forall m, category (OInt m) = Txt) -> (forall m, to_int (load Txt (OInt m)) = Some m) ->
  run_optimization_task CV P S category orc w0 RDir tk tsv up d0 k n s = (s', res) ->
  exists ts dlast rest w1 s1,
    chained t_before t_after d0 ts dlast /\
    st_trace s' = (st_trace s ++ flat_map (task_events n) ts ++ rest)%list /\
    match res with
    | Ok d' => length ts = k /\ d' = dlast /\ rest = []
    | Err _ => (length ts < k)%nat /\ interrupted_task n dlast rest
    end /\
    from_dir category load OInt to_int (World heap (w_disk (fst (st_db s'))) ow) = Ok (w1, s1) /\ s_n s1 = n /\
    forall asks i t, only_asks asks -> nth_error ts i = Some t ->
      task_reloaded category load (run category load (w1, s1) asks) i t.
Proof. exact run_optimization_task_reopen. Qed.
Print Assumptions C76_reopen_task_after_exception.

Example C76_case : d_files (w_disk (x_world (V:=oval unit unit))) = [] /\
  (forall m, x_cat (OInt m : oval unit unit) = Txt) /\ (forall m, x_to_int (OInt m : oval unit unit) = Some m) /\
  outcome (x_run 4) = (Some ValueError, 7, 10)%nat /\ outcome (x_run_task 4) = (Some ValueError, 11, 21)%nat.
Proof. do 3 (split; [reflexivity|]). split; vm_compute; reflexivity. Qed.
