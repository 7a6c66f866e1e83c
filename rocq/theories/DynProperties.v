(** Properties C37-C47: dynamical systems. *)
From Verif Require Import Base BaseLemmas DynModel DynSpec DynProofs DynProofs2 DynProofs5 DynProofs6 DynProofs7.

(** ** C37 *)
Theorem C37_exponential_exact : forall tau x0 attr alpha,
  tau <> 0 -> length attr = length x0 -> par_ok alpha (length x0) ->
  let s := Esys tau x0 attr alpha in
  exists X Xd, solves (e_diffeq s) (e_ana s) x0 X Xd /\
    forall d, (d < length x0)%nat -> 0 < par_val alpha d / tau ->
      tends_to (comp X d) (nth d attr 0) /\ approaches (comp X d) (nth d attr 0).
Proof. exact exp_exact. Qed.
Print Assumptions C37_exponential_exact.
Example C37_case : 2 <> 0 /\ length [0; 7] = length [1; 5] /\ par_ok (PVec [4; 15]) (length [1; 5]) /\
  0 < par_val (PVec [4; 15]) 1 / 2 /\ nth 1 [1; 5] 0 <> nth 1 [0; 7] 0.
Proof. repeat split; cbn; lra. Qed.

(** ** C38. K is the carrying capacity: the non-zero equilibrium. *)
Theorem C38_sigmoid_exact : forall tau x0 rate infl, par_ok rate (length x0) -> par_ok infl (length x0) ->
  (forall d, (d < length x0)%nat -> nth d x0 0 <> 0) ->
  let s := Ssys tau x0 rate infl in
  exists X Xd K, solves (s_diffeq s) (s_ana s) x0 X Xd /\
    length K = length x0 /\ s_diffeq s K = Ok (zeros (length x0)) /\
    forall d, (d < length x0)%nat ->
      nth d K 0 <> 0 /\
      comp X d (tau * par_val infl d) = nth d K 0 / 2 /\
      (forall t, Rabs (comp Xd d t) <= Rabs (comp Xd d (tau * par_val infl d))) /\
      (0 < nth d x0 0 -> forall t, 0 < comp X d t < nth d K 0) /\
      (0 < par_val rate d -> tends_to (comp X d) (nth d K 0)) /\
      (par_val rate d < 0 -> tends_to (comp X d) 0).
Proof. exact sigmoid_exact. Qed.
Print Assumptions C38_sigmoid_exact.
Example C38_case : par_ok (PScal (-20)) (length [1; 2]) /\ par_ok (PVec [0.9; 0.8]) (length [1; 2]) /\
  (forall d, (d < length [1; 2])%nat -> nth d [1; 2] 0 <> 0).
Proof. repeat split. intros [|[|d]] H; cbn in *; try lra; lia. Qed.

(** ** C39. The rate of change is largest at the inflection time tau * t_infl_ratio (at time 0 if that
    is negative). *)
Theorem C39_richards_exact : forall s, h_tau s <> 0 -> h_left s = None -> richards_ok s ->
  (forall d, (d < length (h_init s))%nat -> nth d (h_init s) 0 <> par_val (h_right s) d) ->
  exists X Xd, solves (r_diffeq s) (r_ana s) (h_init s) X Xd /\
    forall d, (d < length (h_init s))%nat ->
      (0 < par_val (h_alpha s) d / h_tau s ->
         tends_to (comp X d) (par_val (h_right s) d) /\ approaches (comp X d) (par_val (h_right s) d)) /\
      (forall t, Rabs (comp Xd d t) <= Rabs (comp Xd d (Rmax 0 (h_tau s * par_val (h_infl s) d)))).
Proof. exact richards_exact. Qed.
Print Assumptions C39_richards_exact.
(** with a left asymptote given by the user *)
Theorem C39_richards_exact_left : forall s p, h_tau s <> 0 -> h_left s = Some p -> richards_ok s ->
  (forall d, (d < length (h_init s))%nat -> 0 < par_val (h_v s) d) ->
  (forall d, (d < length (h_init s))%nat ->
     0 < (nth d (h_init s) 0 - par_val p d) / (par_val (h_right s) d - par_val p d) <= 1) ->
  exists X Xd, solves (r_diffeq s) (r_ana s) (h_init s) X Xd /\
    forall d, (d < length (h_init s))%nat -> 0 < par_val (h_alpha s) d / h_tau s ->
      tends_to (comp X d) (par_val (h_right s) d) /\ approaches (comp X d) (par_val (h_right s) d).
Proof. exact richards_exact_left. Qed.
Print Assumptions C39_richards_exact_left.
(** finding: nan whenever the system starts in its attractor *)
Theorem C39_start_in_attractor_nan : forall tau x0 infl alpha v ts, tau <> 0 ->
  let s := Rsys tau [x0] (PScal x0) (PScal infl) (PScal alpha) (PScal v) None in
  r_diffeq s [x0] = Err NonFinite /\ (ts <> [] -> r_ana s ts = Err NonFinite).
Proof. exact richards_equal_nan. Qed.
Print Assumptions C39_start_in_attractor_nan.
Definition ex_rich := Rsys 0.5 [1; 3] (PVec [0; 5]) (PScal 0.3) (PScal 10) (PVec [1; 10]) None.
Example C39_case : h_tau ex_rich <> 0 /\ richards_ok ex_rich /\
  (forall d, (d < length (h_init ex_rich))%nat -> nth d (h_init ex_rich) 0 <> par_val (h_right ex_rich) d).
Proof.
  repeat split; try (cbn; lra). intros [|[|d]] H; cbn in *; try lra; lia.
Qed.
Example C39_left_case : 0 < (1 - -1) / (5 - -1) <= 1.
Proof. lra. Qed.

(** ** C40. The default spring constant, mass 1; the state is [y z]. *)
Theorem C40_critically_damped_exact : forall tau y0 attr d, 0 < tau -> length attr = length y0 ->
  par_ok d (length y0) -> (forall i, (i < length y0)%nat -> 0 < par_val d i) ->
  let s := new_spring tau y0 attr d None (PScal 1) in
  let n := length y0 in
  exists X Xd, solves (d_diffeq s) (d_ana s) (pad (2 * n) y0) X Xd /\
    forall i, (i < n)%nat ->
      (forall t, comp X (n + i) t = tau * comp Xd i t) /\
      tends_to (comp X i) (nth i attr 0) /\ approaches (comp X i) (nth i attr 0).
Proof. exact spring_default_exact. Qed.
Print Assumptions C40_critically_damped_exact.
(** any spring constant, mass and damping with damping = 2*sqrt(mass*spring) *)
Theorem C40_general_exact : forall s, let n := d_dimy s in
  0 < d_tau s -> length (d_init s) = (2 * n)%nat -> length (d_attr s) = n ->
  par_ok (d_damp s) n -> par_ok (d_spring s) n -> par_ok (d_mass s) n ->
  (forall i, (i < n)%nat -> 0 < par_val (d_mass s) i /\ 0 < par_val (d_spring s) i /\
     par_val (d_damp s) i = 2 * sqrt (par_val (d_mass s) i * par_val (d_spring s) i)) ->
  (d_tau s = 1 \/ forall i, (i < n)%nat -> nth (n + i) (d_init s) 0 = 0) ->
  exists X Xd, solves (d_diffeq s) (d_ana s) (d_init s) X Xd /\
    forall i, (i < n)%nat ->
      (forall t, comp X (n + i) t = d_tau s * comp Xd i t) /\
      tends_to (comp X i) (nth i (d_attr s) 0) /\
      (nth (n + i) (d_init s) 0 = 0 -> approaches (comp X i) (nth i (d_attr s) 0)).
Proof. exact spring_exact. Qed.
Print Assumptions C40_general_exact.
(** findings: a moving start with tau other than 1 is not reproduced at time 0; the spring constant
    "CRITICALLY_DAMPED" does not make a system of mass other than 1 critically damped, so its closed
    form violates its differential equation at each later time *)
Theorem C40_moving_start_wrong : forall tau y z g k m d, 0 < tau -> tau <> 1 -> z <> 0 -> 0 < m -> 0 <= k ->
  exists xd y', d_ana (Dsys tau [y; z] [g] (PScal d) (PScal k) (PScal m) 1) [0] = Ok ([[y; y']], [xd]) /\ y' <> z.
Proof. exact spring_moving_refuted. Qed.
Print Assumptions C40_moving_start_wrong.
Theorem C40_mass_wrong : forall tau y g d m t, 0 < tau -> 0 < d -> 0 < m -> m <> 1 -> y <> g -> 0 < t ->
  let s := new_spring tau [y] [g] (PScal d) None (PScal m) in
  exists x xd, d_ana s [t] = Ok ([x], [xd]) /\ d_diffeq s x <> Ok xd.
Proof. exact spring_mass_refuted. Qed.
Print Assumptions C40_mass_wrong.
Example C40_case : 0 < 0.5 /\ par_ok (PVec [20; 10]) 2 /\ (forall i, (i < 2)%nat -> 0 < par_val (PVec [20; 10]) i).
Proof. repeat split; [lra|]. intros [|[|i]] H; cbn; try lra; lia. Qed.
Example C40_general_case : 4 = 2 * sqrt (4 * 1).
Proof. replace (4 * 1) with (2 * 2) by ring. rewrite sqrt_square; lra. Qed.

(** ** C41 *)
Theorem C41_time_linear_clamped : forall tau (down : bool) ts, tau <> 0 ->
  exists xs xds, t_ana (new_time tau down) ts = Ok (map (fun x => [x]) xs, map (fun x => [x]) xds) /\
    length xs = length ts /\ length xds = length ts /\
    (forall i, (i < length ts)%nat ->
      nth i xs 0 = (if down then 1 - Rmin 1 (nth i ts 0 / tau) else Rmin 1 (nth i ts 0 / tau)) /\
      (nth i ts 0 <> tau -> t_diffeq (new_time tau down) [nth i xs 0] = Ok [nth i xds 0])).
Proof. exact time_spec. Qed.
Print Assumptions C41_time_linear_clamped.
Theorem C41_time_range : forall tau (down : bool) t, 0 < tau -> 0 <= t ->
  exists x xd, t_ana (new_time tau down) [t] = Ok ([[x]], [[xd]]) /\ 0 <= x <= 1.
Proof. exact time_range. Qed.
Print Assumptions C41_time_range.
(** and at the end point they differ *)
Theorem C41_time_end_point : forall tau (down : bool), tau <> 0 ->
  exists x xd, t_ana (new_time tau down) [tau] = Ok ([[x]], [[xd]]) /\ t_diffeq (new_time tau down) [x] <> Ok [xd].
Proof. exact time_end. Qed.
Print Assumptions C41_time_end_point.
Example C41_case : 0 < 2 /\ nth 1 [0; 1; 2; 3] 0 <> 2 /\ Rmin 1 (nth 1 [0; 1; 2; 3] 0 / 2) = 1 / 2.
Proof. cbn. repeat split; try lra. unfold Rmin. destruct (Rle_dec 1 (1 / 2)); lra. Qed.

(** ** C42 *)
Theorem C42_gating_contract : forall tau ratio n, 0 < tau -> 0 < ratio < 1 ->
  exists s X Xd, for_gating tau ratio n = Ok s /\ solves (s_diffeq s) (s_ana s) (repeat 1 n) X Xd /\
    forall i, (i < n)%nat ->
      comp X i 0 = 1 /\ comp X i tau = ratio /\ (forall a b, a < b -> comp X i b < comp X i a) /\
      (forall t, 0 < comp X i t) /\ tends_to (comp X i) 0.
Proof. exact gating_contract. Qed.
Print Assumptions C42_gating_contract.
Example C42_case : 0 < 1.5 /\ 0 < 0.1 < 1 /\ (0 < 1)%nat.
Proof. repeat split; try lra; lia. Qed.

(** ** C43: the results of any sequence of calls *)
Theorem C43_cache_never_stale : forall calls s,
  par_ok (g_rate s) (length (g_init s)) -> par_ok (g_infl s) (length (g_init s)) ->
  c_run (Csys s None) calls = fresh_run s calls.
Proof. exact cache_never_stale. Qed.
Print Assumptions C43_cache_never_stale.
Example C43_case : exists r1 r2, c_run (Csys (Ssys 1 [1] (PScal (-10)) (PScal 0.5)) None)
    [SDiffeq [1]; SSetY [2; 3]; SSetX [2]; SDiffeq [1]] =
    [SVec (Ok [r1]); SUnit (Err ValueError); SUnit (Ok tt); SVec (Ok [r2])].
Proof.
  rewrite C43_cache_never_stale by exact I. cbn -[s_diffeq].
  rewrite !s_diffeq_ok by (cbn; trivial; intros [|i] H; cbn in *; try lra; lia).
  cbn. eexists _, _. reflexivity.
Qed.

(** ** C44 *)
Theorem C44_exponential_decouple : forall s, length (e_attr s) = length (e_init s) -> par_ok (e_alpha s) (length (e_init s)) ->
  same_behaviour (length (e_init s)) (e_init s) (e_diffeq s) (e_diffeq (e_decouple s)) (e_ana s) (e_ana (e_decouple s)).
Proof. exact e_same. Qed.
Print Assumptions C44_exponential_decouple.
Theorem C44_sigmoid_decouple : forall s, par_ok (g_rate s) (length (g_init s)) ->
  same_behaviour (length (g_init s)) (g_init s) (s_diffeq s) (s_diffeq (s_decouple s)) (s_ana s) (s_ana (s_decouple s)).
Proof. exact s_same. Qed.
Print Assumptions C44_sigmoid_decouple.
Theorem C44_richards_decouple : forall s,
  same_behaviour (length (h_init s)) (h_init s) (r_diffeq s) (r_diffeq (r_decouple s)) (r_ana s) (r_ana (r_decouple s)).
Proof. exact r_same. Qed.
Print Assumptions C44_richards_decouple.
Theorem C44_spring_decouple : forall s, length (d_init s) = (2 * d_dimy s)%nat ->
  same_behaviour (length (d_init s)) (d_init s) (d_diffeq s) (d_diffeq (d_decouple s)) (d_ana s) (d_ana (d_decouple s)).
Proof. exact d_same. Qed.
Print Assumptions C44_spring_decouple.
(** decoupling does change the object: there is then one parameter per dimension *)
Example C44_case : e_alpha (e_decouple (Esys 1 [1; 2] [0; 0] (PScal 4))) = PVec [4; 4].
Proof. reflexivity. Qed.

(** ** C45 *)
Theorem C45_runge_kutta_step : forall f n F, computes f n F -> forall dt x, length x = n ->
  step_rk f n dt x = Ok (rk4 F dt x, F (rk4 F dt x)).
Proof. exact step_rk_ok. Qed.
Print Assumptions C45_runge_kutta_step.
Theorem C45_euler_step : forall f n F, computes f n F -> forall dt x, length x = n ->
  step_euler f n dt x = Ok (euler F dt x, F x).
Proof. exact step_euler_ok. Qed.
Print Assumptions C45_euler_step.
Theorem C45_equilibrium_stays : forall m f n dt x, length x = n -> f x = Ok (zeros n) ->
  int_step f n m dt x = Ok (x, zeros n).
Proof. exact step_equilibrium. Qed.
Print Assumptions C45_equilibrium_stays.
Theorem C45_wrong_size : forall m f n dt x, length x <> n -> int_step f n m dt x = Err ValueError.
Proof. exact step_wrong_size. Qed.
Print Assumptions C45_wrong_size.
Theorem C45_exponential_step : forall s dt x, e_tau s <> 0 -> length (e_attr s) = length (e_init s) ->
  par_ok (e_alpha s) (length (e_init s)) -> length x = length (e_init s) ->
  exists x1 x2 xd1 xd2,
    step_rk (e_diffeq s) (length (e_init s)) dt x = Ok (x1, xd1) /\
    step_euler (e_diffeq s) (length (e_init s)) dt x = Ok (x2, xd2) /\
    forall i, (i < length x)%nat ->
      let z := par_val (e_alpha s) i * dt / e_tau s in
      let dist v := nth i v 0 - nth i (e_attr s) 0 in
      dist x1 = rk_factor z * dist x /\ dist x2 = (1 - z) * dist x /\
      (0 <= z -> Rabs (dist x1 - exp (- z) * dist x) <= z ^ 5 / 120 * Rabs (dist x)) /\
      (0 < z <= 2 -> dist x <> 0 -> 0 < dist x1 / dist x < 1).
Proof. exact exp_steps. Qed.
Print Assumptions C45_exponential_step.
(** the error after any number of steps of any lengths *)
Theorem C45_exponential_global_error : forall s ts, e_tau s <> 0 -> length (e_attr s) = length (e_init s) ->
  par_ok (e_alpha s) (length (e_init s)) -> (0 < length ts)%nat -> nth 0 ts 0 = 0 ->
  exists xs xds ys yds,
    integrate (e_diffeq s) (length (e_init s)) RungeKutta (e_init s) ts = Ok (xs, xds) /\
    e_ana s ts = Ok (ys, yds) /\
    forall i, (i < length (e_init s))%nat ->
      let z k := par_val (e_alpha s) i * (nth (S k) ts 0 - nth k ts 0) / e_tau s in
      (forall k, (S k < length ts)%nat -> 0 <= z k <= 2) ->
      forall j, (j < length ts)%nat ->
        Rabs (nth i (nth j xs []) 0 - nth i (nth j ys []) 0)
        <= sumn j (fun k => z k ^ 5 / 120) * Rabs (nth i (e_init s) 0 - nth i (e_attr s) 0).
Proof. exact exp_global. Qed.
Print Assumptions C45_exponential_global_error.
Definition ex_esys := Esys 2 [1; 5] [0; 7] (PVec [4; 15]).
Example C45_case : computes (e_diffeq ex_esys) 2 (eF ex_esys) /\ e_diffeq ex_esys [0; 7] = Ok (zeros 2) /\
  0 < par_val (e_alpha ex_esys) 1 * 0.1 / e_tau ex_esys <= 2.
Proof.
  split; [|split].
  - apply (e_computes ex_esys); cbn; trivial; lra.
  - rewrite (e_diffeq_ok ex_esys) by (cbn; trivial; lra). cbn. unfold zeros. cbn. f_equal. f_equal; [lra|]. f_equal; lra.
  - cbn. lra.
Qed.

(** ** C46 *)
Theorem C46_integrate_rows : forall f n m x0 ts xs xds, integrate f n m x0 ts = Ok (xs, xds) ->
  length xs = length ts /\ length xds = length ts /\ nth 0 xs [] = x0 /\ f x0 = Ok (nth 0 xds []) /\
  forall i, (S i < length ts)%nat ->
    int_step f n m (nth (S i) ts 0 - nth i ts 0) (nth i xs []) = Ok (nth (S i) xs [], nth (S i) xds []).
Proof. exact integrate_spec. Qed.
Print Assumptions C46_integrate_rows.
Theorem C46_integrate_returns : forall f n m F x0 t ts, computes f n F -> length x0 = n ->
  exists xs xds, integrate f n m x0 (t :: ts) = Ok (xs, xds) /\
    Forall (fun r => length r = n) xs /\ Forall (fun r => length r = n) xds.
Proof. exact integrate_total. Qed.
Print Assumptions C46_integrate_returns.
Theorem C46_rest_stays : forall f n m x0 t ts, length x0 = n -> f x0 = Ok (zeros n) ->
  integrate f n m x0 (t :: ts) = Ok (map (fun _ => x0) (t :: ts), map (fun _ => zeros n) (t :: ts)).
Proof. exact integrate_rest. Qed.
Print Assumptions C46_rest_stays.
Example C46_case : exists xs xds, integrate (e_diffeq ex_esys) 2 RungeKutta (e_init ex_esys) [0; 0.1; 0.3] = Ok (xs, xds) /\
  Forall (fun r => length r = 2%nat) xs /\ Forall (fun r => length r = 2%nat) xds.
Proof. apply (C46_integrate_returns _ 2 _ (eF ex_esys)); [apply C45_case|reflexivity]. Qed.

(** ** C47. Full statement also about Dmp.y_init: see DmpProperties. *)
Theorem C47_y_init : forall dim_y dim_x y, (dim_y <= dim_x)%nat ->
  (length y = dim_y -> exists x, set_y_init dim_y dim_x y = Ok x /\ get_y_init dim_y x = y /\ length x = dim_x /\
      (forall i, (dim_y <= i)%nat -> nth i x 0 = 0) /\
      (forall f m ts xs xds, integrate f dim_x m x ts = Ok (xs, xds) -> nth 0 xs [] = x)) /\
  (length y <> dim_y -> set_y_init dim_y dim_x y = Err ValueError).
Proof. exact set_get_y. Qed.
Print Assumptions C47_y_init.
Theorem C47_x_init : forall dim_x x,
  (length x = dim_x -> set_x_init dim_x x = Ok x /\ get_x_init x = x /\
      (forall f m ts xs xds, integrate f dim_x m x ts = Ok (xs, xds) -> nth 0 xs [] = x)) /\
  (length x <> dim_x -> set_x_init dim_x x = Err ValueError).
Proof. exact set_get_x. Qed.
Print Assumptions C47_x_init.
Example C47_case : set_y_init 2 4 [3; 4] = Ok [3; 4; 0; 0].
Proof. reflexivity. Qed.
