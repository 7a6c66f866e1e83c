(** C98: a whole optimization does not depend on the coordinates of the search space and on the unit
    of the costs. *)
From Coq Require Import String.
From Verif Require Import Base SessionModel UpdatersModel UpdatersSpec UpdatersExamples LoopModel LoopSpec LoopExamples
  EquivSpec EquivProofs3 EquivExamples.
Open Scope R_scope.

(** With the coordinates x' = c * x + v of the search space (unit and origin), every call and every
    result of run_optimization and run_optimization_task is the transformed one, also if an exception
    is raised. The sessions (directories, files) may be different. *)
Theorem C98_search_space : forall CV P S catA catB rng argsort c v evA evB rollA rollB erA erB u
    (w0 w0' : world (oval CV P)) r r' x1 x2 x3 x1' x2' x3' d0 k n (o : S) tr ws ws',
  0 < c -> sized rng -> commutes rng c v ->
  (forall o x, length x = length v -> evB o (affine_row c v x) = evA o x) ->
  (forall o x, length x = length v -> rollB o (affine_row c v x) = rollA o x) ->
  (forall o (q : CV) x, length x = length v -> erB o q (affine_row c v x) = erA o q x) ->
  length v = length (d_mean d0) -> bounds_fit d0 ->
  let A := bbo_oracles rng evA argsort u rollA erA in
  let B := bbo_oracles rng evB argsort (scale_updater c u) rollB erB in
  same_run (affine_dist c v) (affine_event c v)
    (run_optimization CV P S catA A w0 r x1 x2 d0 k n (St o tr ws))
    (run_optimization CV P S catB B w0' r' x1' x2' (affine_dist c v d0) k n (St o (map (affine_event c v) tr) ws')) /\
  same_run (affine_dist c v) (affine_event c v)
    (run_optimization_task CV P S catA A w0 r x1 x2 x3 d0 k n (St o tr ws))
    (run_optimization_task CV P S catB B w0' r' x1' x2' x3' (affine_dist c v d0) k n (St o (map (affine_event c v) tr) ws')).
Proof. intros. split; [apply run_affine|apply run_task_affine]; assumption. Qed.
Print Assumptions C98_search_space.
Example C98_search_space_case : sized z_rng /\ commutes z_rng 2 [3; 4] /\ bounds_fit x_dist /\
  length [3; 4] = length (d_mean x_dist).
Proof. repeat split; [exact (proj1 (z_sized _ _ _ _ _ _ H))|exact (proj2 (z_sized _ _ _ _ _ _ H))|apply z_commutes; lra]. Qed.

(** With costs in another unit and with another zero, PI-BB learns the same, step by step *)
Theorem C98_cost_unit : forall CV P S catA catB rng argsort a b f ev roll er u
    (w0 w0' : world (oval CV P)) r r' x1 x2 x3 x1' x2' x3' d0 k n (o : S) tr ws ws',
  ~ rank_method (u_method u) -> 0 < a -> rescores (fun total => a * total + b) f ->
  let A := bbo_oracles rng ev argsort u roll er in
  let B := bbo_oracles rng (fun o x => (fst (ev o x), res_map f (snd (ev o x)))) argsort u roll
             (fun o (q : CV) x => (fst (er o q x), res_map f (snd (er o q x)))) in
  same_run (fun d => d) (cost_event f)
    (run_optimization CV P S catA A w0 r x1 x2 d0 k n (St o tr ws))
    (run_optimization CV P S catB B w0' r' x1' x2' d0 k n (St o (map (cost_event f) tr) ws')) /\
  same_run (fun d => d) (cost_event f)
    (run_optimization_task CV P S catA A w0 r x1 x2 x3 d0 k n (St o tr ws))
    (run_optimization_task CV P S catB B w0' r' x1' x2' x3' d0 k n (St o (map (cost_event f) tr) ws')).
Proof.
  intros * Hm Ha Hf A B.
  split; [apply (run_costs CV P S catA catB rng argsort f ev roll er u (fun _ => True) True)
         |apply (run_task_costs CV P S catA catB rng argsort f ev roll er u (fun _ => True) True)]; auto;
    intros; eapply upd_unit; eauto.
Qed.
Print Assumptions C98_cost_unit.
Example C98_cost_unit_case : ~ rank_method (u_method (UMean "PI-BB" (EInt 10))) /\
  rescores (fun total => 100 * total + 5)
    (fun k => match k with CScalar t => CScalar (100 * t + 5) | CVec (t :: l) => CVec (100 * t + 5 :: l) | CVec [] => CVec [] end).
Proof.
  split; [intros [H|H]; discriminate|]. split; [reflexivity|]. intros k r [->|[l ->]]; [now left|right; eauto].
Qed.

(** CEM and CMA-ES use the order of the costs only: they learn the same with strictly increasing
    transformations of the costs, as long as no two samples of an update have the same cost *)
Theorem C98_cost_order : forall CV P S catA catB rng argsort g f ev roll er u
    (w0 w0' : world (oval CV P)) r r' x1 x2 x3 x1' x2' x3' d0 k n (o : S) tr ws ws',
  argsort_ok argsort -> rank_method (u_method u) -> (forall x y, x < y <-> g x < g y) -> rescores g f ->
  let A := bbo_oracles rng ev argsort u roll er in
  let B := bbo_oracles rng (fun o x => (fst (ev o x), res_map f (snd (ev o x)))) argsort u roll
             (fun o (q : CV) x => (fst (er o q x), res_map f (snd (er o q x)))) in
  (let run := run_optimization CV P S catA A w0 r x1 x2 d0 k n (St o tr ws) in
   is_ok (snd run) -> no_ties (st_trace (fst run)) ->
   same_run (fun d => d) (cost_event f) run
     (run_optimization CV P S catB B w0' r' x1' x2' d0 k n (St o (map (cost_event f) tr) ws'))) /\
  (let run := run_optimization_task CV P S catA A w0 r x1 x2 x3 d0 k n (St o tr ws) in
   is_ok (snd run) -> no_ties (st_trace (fst run)) ->
   same_run (fun d => d) (cost_event f) run
     (run_optimization_task CV P S catB B w0' r' x1' x2' x3' d0 k n (St o (map (cost_event f) tr) ws'))).
Proof.
  intros * Ha Hm Hg Hf A B.
  split; intros run [d' Hok] Hn;
    [apply (run_costs CV P S catA catB rng argsort f ev roll er u distinct_event False)
    |apply (run_task_costs CV P S catA catB rng argsort f ev roll er u distinct_event False)].
  1,4: intros d m cs H; exact (upd_order argsort u g f d m cs Ha Hm Hg Hf H).
  1,3: intros [] He; try exact I; intros rs HT; exact (Hn _ _ _ _ _ rs He HT).
  all: intros [e He]; fold A in He; fold run in He; congruence.
Qed.
Print Assumptions C98_cost_order.
Example C98_cost_order_case : is_ok (snd z_run) /\ no_ties (st_trace (fst z_run)) /\ length (st_trace (fst z_run)) = 5%nat /\
  rank_method (u_method (UMean "CEM" (EInt 1))) /\ argsort_ok my_argsort.
Proof. destruct z_run_ok as (H1 & H2 & H3). repeat split; auto; [now left|apply my_argsort_ok..]. Qed.
