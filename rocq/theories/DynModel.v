(** Model of dynamicalsystems/*.py. States are vectors; results of analytical_solution are pairs of
    lists with one row per time. *)
From Verif Require Import Base.

(** numpy: elementwise operation on two vectors, with broadcasting of vectors of size 1 *)
Definition vop (f : R -> R -> R) (a b : list R) : res (list R) :=
  if Nat.eqb (length a) (length b) then Ok (map2 f a b)
  else match a, b with
       | [x], _ => Ok (map (f x) b)
       | _, [y] => Ok (map (fun x => f x y) a)
       | _, _ => Err ValueError
       end.
(** parameters: scalars or arrays *)
Inductive param := PScal (r : R) | PVec (l : list R).
(** elementwise operation of a parameter with a vector *)
Definition pop (f : R -> R -> R) (p : param) (b : list R) : res (list R) :=
  match p with PScal r => Ok (map (f r) b) | PVec l => vop f l b end.
(** p[i] for arrays, p for scalars *)
Definition par_at (p : param) (i : nat) : res R :=
  match p with PScal r => Ok r | PVec l => nth_res l i end.
(** np.isscalar(p) ? np.full(n, p) : p *)
Definition decouple (n : nat) (p : param) : param :=
  match p with PScal r => PVec (repeat r n) | PVec l => PVec l end.
(** division of a vector by a scalar; numpy yields nan or inf for 0 *)
Definition vdiv (a : list R) (t : R) : res (list R) :=
  if Req_EM_T t 0 then match a with [] => Ok [] | _ => Err NonFinite end
  else Ok (map (fun x => x / t) a).

Definition solution : Type := (list (list R) * list (list R))%type.

(** ** DynamicalSystem.py *)
(** l.43-50, the state vector made from y_init: y_init padded with zeros; dim_x = order * dim_y *)
Definition pad (n : nat) (y : list R) : list R := (y ++ repeat 0 (n - length y))%list.
(** l.92-100, l.112-123, the setters of x_init and y_init: the new state *)
Definition set_x_init (dim_x : nat) (x : list R) : res (list R) :=
  if Nat.eqb (length x) dim_x then Ok x else Err ValueError.
Definition set_y_init (dim_y dim_x : nat) (y : list R) : res (list R) :=
  if Nat.eqb (length y) dim_y then set_x_init dim_x (pad dim_x y) else Err ValueError.

(** l.86-90, l.102-110, the getters *)
Definition get_x_init (x_init : list R) : list R := x_init.
Definition get_y_init (dim_y : nat) (x_init : list R) : list R := firstn dim_y x_init.

Section Integrate.
Variable f : list R -> res (list R).   (* differential_equation *)
Variable dim : nat.                    (* dim_x *)

(** l.146-155, integrate_start without argument *)
Definition integrate_start (x0 : list R) : res (list R * list R) := let* xd := f x0 in Ok (x0, xd).
(** l.166-177 *)
Definition step_euler (dt : R) (x : list R) : res (list R * list R) :=
  if Nat.eqb (length x) dim then
    let* xd := f x in
    let* x' := vop Rplus x (map (Rmult dt) xd) in
    Ok (x', xd)
  else Err ValueError.
(** l.179-203 *)
Definition step_rk (dt : R) (x : list R) : res (list R * list R) :=
  if Nat.eqb (length x) dim then
    let* k1 := f x in
    let* i2 := vop Rplus x (map (Rmult (dt * 0.5)) k1) in
    let* k2 := f i2 in
    let* i3 := vop Rplus x (map (Rmult (dt * 0.5)) k2) in
    let* k3 := f i3 in
    let* i4 := vop Rplus x (map (Rmult dt) k3) in
    let* k4 := f i4 in
    let* s23 := vop Rplus k2 k3 in
    let* s123 := vop Rplus k1 (map (Rmult 2) s23) in
    let* s := vop Rplus s123 k4 in
    let* x' := vop Rplus x (map (fun v => dt * v / 6) s) in
    let* xd := f x' in
    Ok (x', xd)
  else Err ValueError.
Inductive int_method := RungeKutta | Euler.
Definition int_step (m : int_method) := match m with RungeKutta => step_rk | Euler => step_euler end.
(** l.205-222: the loop; t is the previous time, x the previous state *)
Fixpoint int_loop (m : int_method) (t : R) (x : list R) (ts : list R) : res solution :=
  match ts with
  | [] => Ok ([], [])
  | t' :: ts' =>
    let* (x', xd') := int_step m (t' - t) x in
    let* (xs, xds) := int_loop m t' x' ts' in
    Ok (x' :: xs, xd' :: xds)
  end.
(** xs[0, :] of an empty array is an IndexError; the right-hand side is evaluated first *)
Definition integrate (m : int_method) (x0 : list R) (ts : list R) : res solution :=
  let* (x, xd) := integrate_start x0 in
  match ts with
  | [] => Err IndexError
  | t :: ts' => let* (xs, xds) := int_loop m t x ts' in Ok (x :: xs, xd :: xds)
  end.
End Integrate.

(** ** ExponentialSystem.py *)
Record esys := Esys { e_tau : R; e_init : list R; e_attr : list R; e_alpha : param }.
(** l.77-87 *)
Definition e_diffeq (s : esys) (x : list R) : res (list R) :=
  let* d := vop Rminus (e_attr s) x in
  let* a := pop Rmult (e_alpha s) d in
  vdiv a (e_tau s).
(** l.89-109 *)
Definition e_ana (s : esys) (ts : list R) : res solution :=
  let* cs := mapM (fun i => let* a := par_at (e_alpha s) i in
                            let* x0 := nth_res (e_init s) i in
                            let* xa := nth_res (e_attr s) i in Ok (a, x0, xa))
                  (seq 0 (length (e_init s))) in
  if Req_EM_T (e_tau s) 0 then Err NonFinite else
  Ok (map (fun t => map (fun '(a, x0, xa) => (x0 - xa) * exp (- a * t / e_tau s) + xa) cs) ts,
      map (fun t => map (fun '(a, x0, xa) => (x0 - xa) * - (a / e_tau s) * exp (- a * t / e_tau s)) cs) ts).
(** l.111-113 *)
Definition e_decouple (s : esys) : esys :=
  Esys (e_tau s) (e_init s) (e_attr s) (decouple (length (e_init s)) (e_alpha s)).

(** ** SigmoidSystem.py. First with the capacities recomputed on each call. *)
Record ssys := Ssys { g_tau : R; g_init : list R; g_rate : param; g_infl : param }.
(** l.154-207 *)
Definition s_ks (s : ssys) : res (list R) :=
  mapM (fun i => let* r := par_at (g_rate s) i in
                 let* q := par_at (g_infl s) i in
                 let* n0 := nth_res (g_init s) i in
                 Ok (n0 * (1 + 1 / exp (- r * (g_tau s * q)))))
       (seq 0 (length (g_init s))).
(** l.117-127, given the capacities; dividing by a capacity 0 yields nan or inf *)
Definition s_diffeq_k (s : ssys) (ks x : list R) : res (list R) :=
  if existsb (fun k => if Req_EM_T k 0 then true else false) ks then Err NonFinite else
  let* q := vop Rdiv x ks in
  let* rx := pop Rmult (g_rate s) x in
  vop Rmult rx (map (fun v => 1 - v) q).
Definition s_diffeq (s : ssys) (x : list R) : res (list R) := let* ks := s_ks s in s_diffeq_k s ks x.
(** l.129-152, given the capacities *)
Definition s_ana_k (s : ssys) (ks ts : list R) : res solution :=
  let* cs := mapM (fun i => let* r := par_at (g_rate s) i in
                            let* k := nth_res ks i in
                            let* x0 := nth_res (g_init s) i in
                            if Req_EM_T x0 0 then Err NonFinite else Ok (r, k, k / x0 - 1))
                  (seq 0 (length (g_init s))) in
  Ok (map (fun t => map (fun '(r, k, b) => k / (1 + b * exp (- r * t))) cs) ts,
      map (fun t => map (fun '(r, k, b) => (k * r * b) / Rsqr (1 + b * exp (- r * t)) * exp (- r * t)) cs) ts).
Definition s_ana (s : ssys) (ts : list R) : res solution := let* ks := s_ks s in s_ana_k s ks ts.
(** l.209-214 *)
Definition s_decouple (s : ssys) : ssys :=
  Ssys (g_tau s) (g_init s) (decouple (length (g_init s)) (g_rate s)) (decouple (length (g_init s)) (g_infl s)).
(** l.48-84; d = 10e-7 *)
Definition gating_d : R := 10 * / 10000000.
Definition for_gating (tau ratio : R) (n : nat) : res ssys :=
  let d := gating_d in
  if Req_EM_T ratio 0 then Err ZeroDivisionError else
  let arg := ((1 + d) / ratio - 1) / d in
  if Rle_dec arg 0 then Err NonFinite else
  if Req_EM_T tau 0 then Err NonFinite else
  let max_rate := - ln arg / tau in
  if Req_EM_T max_rate 0 then Err NonFinite else
  let t_infl := - ln (1 / d) / max_rate in
  Ok (Ssys tau (repeat 1 n) (PScal max_rate) (PScal (t_infl / tau))).

(** the object with its cache _Ks_cached, and its methods in any order *)
Record csys := Csys { c_sys : ssys; c_ks : option (list R) }.
Inductive s_call :=
  | SSetTau (t : R) | SSetX (x : list R) | SSetY (y : list R) | SDecouple
  | SDiffeq (x : list R) | SAna (ts : list R).
Inductive s_result := SUnit (r : res unit) | SVec (r : res (list R)) | SSol (r : res solution).
(** _get_ks, l.154-157: uses the cache if there is one. If an IndexError is raised in the loop the
    array created in l.176 stays in the cache; such systems are outside the model. *)
Definition c_get_ks (c : csys) : csys * res (list R) :=
  match c_ks c with
  | Some ks => (c, Ok ks)
  | None => match s_ks (c_sys c) with
            | Ok ks => (Csys (c_sys c) (Some ks), Ok ks)
            | Err e => (c, Err Unmodelled)
            end
  end.
(** l.86-93, l.95-104, l.106-115, l.209-214, l.117-127, l.129-152 *)
Definition c_do (c : csys) (call : s_call) : csys * s_result :=
  let s := c_sys c in
  match call with
  | SSetTau t => (Csys (Ssys t (g_init s) (g_rate s) (g_infl s)) None, SUnit (Ok tt))
  | SSetX x | SSetY x =>
    if Nat.eqb (length x) (length (g_init s))
    then (Csys (Ssys (g_tau s) x (g_rate s) (g_infl s)) None, SUnit (Ok tt))
    else (c, SUnit (Err ValueError))
  | SDecouple => (Csys (s_decouple s) None, SUnit (Ok tt))
  | SDiffeq x => let '(c', r) := c_get_ks c in (c', SVec (let* ks := r in s_diffeq_k s ks x))
  | SAna ts => let '(c', r) := c_get_ks c in (c', SSol (let* ks := r in s_ana_k s ks ts))
  end.
Fixpoint c_run (c : csys) (calls : list s_call) : list s_result :=
  match calls with
  | [] => []
  | x :: xs => let '(c', r) := c_do c x in r :: c_run c' xs
  end.

(** ** RichardsSystem.py. self.v is clipped to at least 0.5 when the left asymptote is computed
    (l.47); in the model this is done on each call instead of changing the object. *)
Record rsys := Rsys { h_tau : R; h_init : list R; h_right : param; h_infl : param; h_alpha : param;
                      h_v : param; h_left : option param }.
Definition pmap (f : R -> R) (p : param) : param :=
  match p with PScal r => PScal (f r) | PVec l => PVec (map f l) end.
Definition r_v (s : rsys) : param :=
  match h_left s with None => pmap (Rmax 0.5) (h_v s) | Some _ => h_v s end.
(** np.power on real numbers: 0 to a positive power is 0, to a negative power inf; a negative base
    gives nan unless the exponent is an integer *)
Definition npow (x y : R) : res R :=
  if Rlt_dec 0 x then Ok (Rpower x y)
  else if Req_EM_T x 0 then (if Rlt_dec 0 y then Ok 0 else if Req_EM_T y 0 then Ok 1 else Err NonFinite)
  else if Req_EM_T y (IZR (Int_part y)) then Ok (powerRZ x (Int_part y)) else Err NonFinite.
(** l.45-51, one dimension *)
Definition r_left_at (tau infl alpha v x0 k : R) : res R :=
  let t_infl := Rmax 0 (tau * infl) in
  if Req_EM_T tau 0 then Err NonFinite else
  let exp_term := exp (- alpha * v * t_infl / tau) in
  let* z := npow (v / exp_term + 1) (1 / v) in
  if Req_EM_T (z - 1) 0 then Err NonFinite else Ok ((z * x0 - k) / (z - 1)).
(** l.41-51 and 78-84, parameters of dimension i. Simplification: arrays have one element per dimension. *)
Definition r_at (s : rsys) (i : nat) : res (R * R * R * R * R) :=   (* alpha, v, a, k, x0 *)
  let* alpha := par_at (h_alpha s) i in
  let* v := par_at (r_v s) i in
  let* k := par_at (h_right s) i in
  let* x0 := nth_res (h_init s) i in
  let* a := match h_left s with
            | Some p => par_at p i
            | None => let* infl := par_at (h_infl s) i in r_left_at (h_tau s) infl alpha v x0 k
            end in
  Ok (alpha, v, a, k, x0).
(** l.53-63. Simplification: only states of size dim_x are accepted. *)
Definition r_diffeq (s : rsys) (x : list R) : res (list R) :=
  if Nat.eqb (length x) (length (h_init s)) then
    mapM (fun i => let* c := r_at s i in
                   let '(alpha, v, a, k, _) := c in
                   let* xi := nth_res x i in
                   if Req_EM_T (k - a) 0 then Err NonFinite else
                   let* p := npow ((xi - a) / (k - a)) v in
                   if Req_EM_T (h_tau s) 0 then Err NonFinite else
                   Ok (alpha * (1 - p) * (xi - a) / h_tau s))
         (seq 0 (length x))
  else Err ValueError.
(** l.78-97, one dimension and one time *)
Definition r_ana_at (tau alpha v a k x0 : R) (t : R) : res (R * R) :=
  if Req_EM_T (x0 - a) 0 then Err NonFinite else
  let* p := npow ((k - a) / (x0 - a)) v in
  let q := -1 + p in
  if Req_EM_T tau 0 then Err NonFinite else
  if Req_EM_T v 0 then Err NonFinite else
  let e := exp (- alpha * v * t / tau) in
  let* d := npow (1 + q * e) (1 / v) in
  let* d' := npow (1 + q * e) (1 + 1 / v) in
  if Req_EM_T d 0 then Err NonFinite else
  if Req_EM_T d' 0 then Err NonFinite else
  Ok ((k - a) / d + a, q * alpha * (k - a) * (e / d') / tau).
(** l.65-99 *)
Definition r_ana (s : rsys) (ts : list R) : res solution :=
  let* rows := mapM (fun t => mapM (fun i => let* c := r_at s i in
                                             let '(alpha, v, a, k, x0) := c in
                                             r_ana_at (h_tau s) alpha v a k x0 t)
                                   (seq 0 (length (h_init s)))) ts in
  Ok (map (map fst) rows, map (map snd) rows).
(** l.101-107 *)
Definition r_decouple (s : rsys) : rsys :=
  let n := length (h_init s) in
  Rsys (h_tau s) (h_init s) (h_right s) (decouple n (h_infl s)) (decouple n (h_alpha s))
       (decouple n (h_v s)) (h_left s).

(** ** SpringDamperSystem.py. The state is y ++ z. *)
Record dsys := Dsys { d_tau : R; d_init : list R; d_attr : list R; d_damp : param; d_spring : param;
                      d_mass : param; d_dimy : nat }.
(** l.29-54; spring_constant None is "CRITICALLY_DAMPED" *)
Definition new_spring (tau : R) (y0 attr : list R) (damp : param) (spring : option param) (mass : param) : dsys :=
  let k := match spring with
           | Some k => k
           | None => pmap (fun d => d * d / 4) damp
           end in
  Dsys tau (pad (2 * length y0) y0) attr damp k mass (length y0).
(** l.70-108 *)
Definition d_diffeq (s : dsys) (x : list R) : res (list R) :=
  let n := d_dimy s in
  let y := firstn n x in
  let z := skipn n x in
  let* yd := vdiv z (d_tau s) in
  let* zd := mapM (fun i => let* k := par_at (d_spring s) i in
                            let* d := par_at (d_damp s) i in
                            let* m := par_at (d_mass s) i in
                            let* yi := nth_res y i in
                            let* zi := nth_res z i in
                            let* g := nth_res (d_attr s) i in
                            if Req_EM_T (m * d_tau s) 0 then Err NonFinite
                            else Ok ((- k * (yi - g) - d * zi) / (m * d_tau s))) (seq 0 n) in
  Ok (yd ++ zd)%list.
(** l.110-175: for each dimension: goal, A, B, omega_0 *)
Definition d_coeffs (s : dsys) : res (list (R * R * R * R)) :=
  mapM (fun i => let* k := par_at (d_spring s) i in
                 let* m := par_at (d_mass s) i in
                 let* y := nth_res (d_init s) i in
                 let* z := nth_res (d_init s) (d_dimy s + i) in
                 let* g := nth_res (d_attr s) i in
                 if Req_EM_T m 0 then Err NonFinite else
                 if Rlt_dec (k / m) 0 then Err NonFinite else
                 if Req_EM_T (d_tau s) 0 then Err NonFinite else
                 let w := sqrt (k / m) / d_tau s in
                 Ok (g, y - g, z + w * (y - g), w)) (seq 0 (d_dimy s)).
Definition d_ana (s : dsys) (ts : list R) : res solution :=
  let* cs := d_coeffs s in
  let y t := map (fun '(g, a, b, w) => g + (a + b * t) * exp (- w * t)) cs in
  let yd t := map (fun '(g, a, b, w) => (b - w * (a + b * t)) * exp (- w * t)) cs in
  let ydd t := map (fun '(g, a, b, w) => (- w * (2 * b - w * (a + b * t))) * exp (- w * t)) cs in
  let times l := map (fun v => v * d_tau s) l in
  Ok (map (fun t => y t ++ times (yd t))%list ts, map (fun t => yd t ++ times (ydd t))%list ts).
(** l.177-183 *)
Definition d_decouple (s : dsys) : dsys :=
  let n := d_dimy s in
  Dsys (d_tau s) (d_init s) (d_attr s) (decouple n (d_damp s)) (decouple n (d_spring s))
       (decouple n (d_mass s)) n.

(** ** TimeSystem.py *)
Record tsys := Tsys { t_tau : R; t_init : list R; t_down : bool }.
(** l.29-40 *)
Definition new_time (tau : R) (down : bool) : tsys := Tsys tau [if down then 1 else 0] down.
(** l.54-70; the truth value of an array that has not one element is an error *)
Definition t_diffeq (s : tsys) (x : list R) : res (list R) :=
  match x with
  | [v] =>
    if t_down s then
      if Rlt_dec 0 v then (if Req_EM_T (t_tau s) 0 then Err ZeroDivisionError else Ok [-1 / t_tau s]) else Ok [0]
    else
      if Rlt_dec v 1 then (if Req_EM_T (t_tau s) 0 then Err ZeroDivisionError else Ok [1 / t_tau s]) else Ok [0]
  | _ => Err ValueError
  end.
(** l.72-93 *)
Definition t_ana (s : tsys) (ts : list R) : res solution :=
  if Req_EM_T (t_tau s) 0 then Err NonFinite else
  let x t := if t_down s then 1 - t / t_tau s else t / t_tau s in
  let out t := if t_down s then (if Rlt_dec (x t) 0 then true else false)
               else (if Rlt_dec 1 (x t) then true else false) in
  Ok (map (fun t => [if out t then (if t_down s then 0 else 1) else x t]) ts,
      map (fun t => [if out t then 0 else (if t_down s then -1 else 1) / t_tau s]) ts).
