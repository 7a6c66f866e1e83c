(** Model of dmpbbo/dmps/Trajectory.py.

    Methods that change the trajectory return the changed object next to the result, so that what is
    left after an exception is visible. What the object looks like when numpy produced nan (result
    [NonFinite]) is not modelled. A trajectory passed to a method is another object than self, except in
    [prepend_self] (append only reads attributes of its argument that it has not assigned yet, so that
    t.append(t) is [append t t]). *)
From Coq Require Import String.
From Coq Require Import SpecFloat.
From Verif Require Import Base SessionModel.
Open Scope R_scope.

(** numpy arrays of one or two dimensions *)
Inductive nd := V1 (l : list R) | V2 (m : mat).
(** shape[0] *)
Definition rows_of (a : nd) : nat := match a with V1 l => length l | V2 m => nrows m end.

(** l.60-69, the fields of a trajectory. [tj_dim] is _dim; [tj_dt] is _dt_mean, None being nan. *)
Record traj := Traj { tj_ts : list R; tj_dt : option R; tj_dim : nat; tj_ys : mat; tj_yds : mat;
                      tj_ydds : mat; tj_misc : option nd }.

(** the column j of a list of rows *)
Definition col (j : nat) (rows : list (list R)) : list R := map (fun r => nth j r 0) rows.
(** l.222-227; max and min of zero rows raise ValueError *)
Definition get_range_per_dim (t : traj) : res (list R) :=
  match mrows (tj_ys t) with
  | [] => Err ValueError
  | r :: rows =>
    Ok (map (fun j => rmax_list (nth j r 0) (col j rows) - rmin_list (nth j r 0) (col j rows))
            (seq 0 (mcols (tj_ys t))))
  end.

(** ** differentiation *)
(** np.diff *)
Fixpoint diffs (l : list R) : list R :=
  match l with
  | a :: l' => match l' with b :: _ => (b - a) :: diffs l' | [] => [] end
  | [] => []
  end.
(** np.mean(np.diff(ts)), l.35; the mean of nothing is nan *)
Definition dt_mean (ts : list R) : option R :=
  match diffs ts with [] => None | d => Some (rsum d / INR (length d)) end.
(** np.convolve(a, v), full mode *)
Definition convolve (a v : list R) : list R :=
  map (fun k => sumn (length a) (fun j => if Nat.leb j k then nth j a 0 * nth (k - j) v 0 else 0))
      (seq 0 (length a + length v - 1)).
(** l.583-600. np.convolve refuses empty vectors. Simplification: no matrices without columns. *)
Definition diffnc (m : mat) (dt : option R) : res mat :=
  let n := nrows m in
  if Nat.eqb n 0 then Err ValueError else
  if Nat.ltb n 2 then Err IndexError else
  match dt with
  | None => Err NonFinite
  | Some d =>
    if Req_EM_T d 0 then Err NonFinite else
    let fil := map (fun c => c / 2 / d) [1; 0; -1] in
    let cols := map (fun j => convolve (col j (mrows m)) fil) (seq 0 (mcols m)) in
    let xs2 := map (fun k => map (fun c => nth k c 0) cols) (seq 0 (n + 2)) in
    let xs := firstn n (skipn 1 xs2) in
    let xs := set_nth xs 0 (nth 1 xs []) in
    let xs := set_nth xs (n - 1) (nth (n - 2) xs []) in
    Ok (Mat (mcols m) xs)
  end.

(** ** constructors *)
(** reshape((n_time_steps, 1)) of vectors *)
Definition column (n : nat) (a : nd) : res mat :=
  match a with
  | V1 l => if Nat.eqb (length l) n then Ok (Mat 1 (map (fun x => [x]) l)) else Err ValueError
  | V2 m => Ok m
  end.
Definition same_shape (a b : mat) : bool := (Nat.eqb (nrows a) (nrows b) && Nat.eqb (mcols a) (mcols b))%bool.
(** l.40-54, the derivatives of d, given or computed *)
Definition derivative (n : nat) (ys d : mat) (dt : option R) (given : option nd) : res mat :=
  match given with
  | None => diffnc d dt
  | Some a => let* m := column n a in if same_shape ys m then Ok m else Err ValueError
  end.
(** l.30-69 *)
Definition new_traj (ts : list R) (ys : nd) (yds ydds misc : option nd) : res traj :=
  let n := length ts in
  if Nat.eqb n (rows_of ys) then
    let dt := dt_mean ts in
    let* ys := column n ys in
    let* yds := derivative n ys ys dt yds in
    let* ydds := derivative n ys yds dt ydds in
    let* _ := match misc with
              | Some a => if Nat.eqb n (rows_of a) then Ok tt else Err ValueError
              | None => Ok tt
              end in
    Ok (Traj ts dt (mcols ys) ys yds ydds misc)
  else Err ValueError.

(** matrix[:, a:b] *)
Definition cols_of (m : mat) (a b : nat) : mat :=
  Mat (Nat.min b (mcols m) - a) (map (fun r => firstn (b - a) (skipn a r)) (mrows m)).
(** l.71-92. Simplification: a negative number of dimensions is outside the model. *)
Definition from_matrix (m : mat) (n_misc : nat) : res traj :=
  if Nat.eqb (mcols m) 0 then Err IndexError else
  if Nat.ltb (mcols m - 1) n_misc then Err Unmodelled else
  let d := ((mcols m - 1 - n_misc) / 3)%nat in
  new_traj (col 0 (mrows m)) (V2 (cols_of m 1 (1 * d + 1))) (Some (V2 (cols_of m (1 * d + 1) (2 * d + 1))))
           (Some (V2 (cols_of m (2 * d + 1) (3 * d + 1)))) (Some (V2 (cols_of m (3 * d + 1) (mcols m)))).

(** ** properties *)
(** l.154-163: shapes with a zero count as not having misc *)
Definition has_misc (t : traj) : bool :=
  match tj_misc t with
  | None => false
  | Some (V1 l) => Nat.ltb 0 (length l)
  | Some (V2 m) => Nat.ltb 0 (nrows m * mcols m)
  end.
(** l.165-171, l.173-179 *)
Definition tj_length (t : traj) : nat := length (tj_ts t).
Definition duration (t : traj) : res R :=
  match tj_ts t with [] => Err IndexError | a :: _ => Ok (last (tj_ts t) 0 - a) end.
(** l.189-198; a vector has no shape[1] *)
Definition dim_misc (t : traj) : res nat :=
  if has_misc t then
    match tj_misc t with
    | Some (V2 m) => Ok (mcols m)
    | _ => Err IndexError
    end
  else Ok 0%nat.
(** l.200-214 *)
Definition y_init (t : traj) : res (list R) := nth_res (mrows (tj_ys t)) 0.
Definition y_final (t : traj) : res (list R) := nth_res (mrows (tj_ys t)) (length (mrows (tj_ys t)) - 1).
(** l.132-137 *)
Definition yddds (t : traj) : res mat := diffnc (tj_ydds t) (tj_dt t).

(** ** methods *)
Definition set_ts (t : traj) ts := Traj ts (tj_dt t) (tj_dim t) (tj_ys t) (tj_yds t) (tj_ydds t) (tj_misc t).
Definition set_data (t : traj) ts ys yds ydds misc := Traj ts (tj_dt t) (tj_dim t) ys yds ydds misc.
(** l.148-152 *)
Definition set_misc (t : traj) (a : nd) : traj * res unit :=
  if Nat.eqb (rows_of a) (tj_length t)
  then (set_data t (tj_ts t) (tj_ys t) (tj_yds t) (tj_ydds t) (Some a), Ok tt) else (t, Err ValueError).
(** l.216-220 *)
Definition set_start_time_to_zero (t : traj) : traj * res unit :=
  match tj_ts t with
  | [] => (t, Err IndexError)
  | a :: _ => (set_ts t (map (fun x => x - a) (tj_ts t)), Ok tt)
  end.

(** Python's l[start:end] *)
Definition slice_ix (n : nat) (z : Z) : nat :=
  if (z <? 0)%Z then Z.to_nat (z + Z.of_nat n) else Nat.min (Z.to_nat z) n.
Definition slice {A} (s e : Z) (l : list A) : list A :=
  let a := slice_ix (length l) s in
  let b := slice_ix (length l) e in
  firstn (b - a) (skipn a l).
Definition mslice (s e : Z) (m : mat) : mat := Mat (mcols m) (slice s e (mrows m)).
(** l.277-282; a vector cannot be indexed with two indices *)
Definition do_crop (t : traj) (s e : Z) : traj * res unit :=
  let with_misc a := set_data t (slice s e (tj_ts t)) (mslice s e (tj_ys t)) (mslice s e (tj_yds t))
                              (mslice s e (tj_ydds t)) a in
  match tj_misc t with
  | None => (with_misc None, Ok tt)
  | Some (V2 m) => (with_misc (Some (V2 (mslice s e m))), Ok tt)
  | Some (V1 l) => (with_misc (Some (V1 l)), Err IndexError)
  end.
(** l.229-282 with as_times=False *)
Definition crop (t : traj) (s e : Z) : traj * res unit :=
  match tj_ts t with
  | [] => (t, Ok tt)
  | _ => if (e <=? s)%Z then (t, Err ValueError) else do_crop t s e
  end.
(** np.argmax(ts >= x): the first index at which it holds, 0 if there is none *)
Fixpoint find_ge (l : list R) (x : R) : option nat :=
  match l with
  | [] => None
  | a :: l' => if Rle_dec x a then Some 0%nat else option_map S (find_ge l' x)
  end.
Definition argmax_ge (l : list R) (x : R) : nat := match find_ge l x with Some k => k | None => 0%nat end.
(** l.229-282 with as_times=True *)
Definition crop_times (t : traj) (s e : R) : traj * res unit :=
  match tj_ts t with
  | [] => (t, Ok tt)
  | first :: _ =>
    let ts := tj_ts t in
    let final := last ts 0 in
    if Rle_dec e s then (t, Err ValueError) else
    if Rlt_dec final s then (t, Ok tt) else
    if Rlt_dec e first then (t, Ok tt) else
    let a := if Rle_dec s first then 0%nat else argmax_ge ts s in
    let b := if Rle_dec final e then (length ts - 1)%nat else argmax_ge ts e in
    do_crop t (Z.of_nat a) (Z.of_nat b)
  end.

(** np.concatenate; the numbers of columns (and dimensions) must agree *)
Definition concat (a b : mat) : res mat :=
  if Nat.eqb (mcols a) (mcols b) then Ok (Mat (mcols a) (mrows a ++ mrows b)) else Err ValueError.
Definition concat_misc (a b : option nd) : res (option nd) :=
  match a, b with
  | None, _ | _, None => Ok None
  | Some (V1 x), Some (V1 y) => Ok (Some (V1 (x ++ y)))
  | Some (V2 x), Some (V2 y) => let* m := concat x y in Ok (Some (V2 m))
  | _, _ => Err ValueError
  end.
(** l.436-444 and l.454-461: the data of a and b, concatenated one after the other into t, which is
    left half-changed if an exception occurs *)
Definition join (t : traj) (ts : list R) (a b : traj) : traj * res unit :=
  let t1 := set_ts t ts in
  match concat (tj_ys a) (tj_ys b) with
  | Err e => (t1, Err e)
  | Ok ys =>
    let t2 := set_data t1 ts ys (tj_yds t) (tj_ydds t) (tj_misc t) in
    match concat (tj_yds a) (tj_yds b) with
    | Err e => (t2, Err e)
    | Ok yds =>
      let t3 := set_data t1 ts ys yds (tj_ydds t) (tj_misc t) in
      match concat (tj_ydds a) (tj_ydds b) with
      | Err e => (t3, Err e)
      | Ok ydds =>
        match concat_misc (tj_misc a) (tj_misc b) with
        | Err e => (set_data t1 ts ys yds ydds (tj_misc t), Err e)
        | Ok misc => (set_data t1 ts ys yds ydds misc, Ok tt)
        end
      end
    end
  end.
(** l.429-444 *)
Definition append (t u : traj) : traj * res unit :=
  match tj_ts u, tj_ts t with
  | [], _ | _, [] => (t, Err IndexError)
  | u0 :: _, _ => match tj_dt t with
                  | None => (t, Err NonFinite)
                  | Some dt =>
                    let ts := map (fun x => x - u0 + (last (tj_ts t) 0 + dt)) (tj_ts u) in
                    join t (tj_ts t ++ ts) t u
                  end
  end.
(** l.445-461 *)
Definition prepend (t u : traj) : traj * res unit :=
  match set_start_time_to_zero t with
  | (t0, Err e) => (t0, Err e)
  | (t0, Ok _) =>
    match duration u with
    | Err e => (t0, Err e)
    | Ok dur =>
      match tj_dt u with
      | None => (t0, Err NonFinite)
      | Some dt => join t0 (tj_ts u ++ map (fun x => x + (dur + dt)) (tj_ts t0)) u t0
      end
    end
  end.
(** l.445-461 with self as argument: the duration is that of the times from 0, and the shift of self.ts is
    also one of trajectory.ts *)
Definition prepend_self (t : traj) : traj * res unit :=
  match set_start_time_to_zero t with
  | (t0, Err e) => (t0, Err e)
  | (t0, Ok _) =>
    match duration t0 with
    | Err e => (t0, Err e)
    | Ok dur =>
      match tj_dt t0 with
      | None => (t0, Err NonFinite)
      | Some dt => let t1 := set_ts t0 (map (fun x => x + (dur + dt)) (tj_ts t0)) in join t1 (tj_ts t1 ++ tj_ts t1) t1 t1
      end
    end
  end.

(** np.arange(0.0, n * dt, dt), over the real numbers: see C59 for floating-point numbers. For nan the
    length cannot be computed (ValueError). Simplification: dt = 0 is outside the model. *)
Definition arange (n : nat) (dt : option R) : res (list R) :=
  match dt with
  | None => Err ValueError
  | Some d => if Req_EM_T d 0 then Err Unmodelled else Ok (map (fun i => INR i * d) (seq 0 n))
  end.
(** The number of values of np.arange(0.0, n * dt, dt) in double precision:
    ceil((stop - start) / step), computed with the rounded product (l.285, l.296). *)
Definition sf_of_nat (n : nat) : spec_float := binary_normalize 53 1024 (Z.of_nat n) 0 false.
Definition sf_ceil (x : spec_float) : option Z :=
  match x with
  | S754_zero _ => Some 0%Z
  | S754_finite s m e =>
    let z := if s then Zneg m else Zpos m in
    Some (if (0 <=? e)%Z then z * 2 ^ e else - ((- z) / 2 ^ (- e)))%Z
  | _ => None
  end.
Definition arange_length (n : nat) (dt : spec_float) : option Z :=
  sf_ceil (SFdiv 53 1024 (SFsub 53 1024 (SFmul 53 1024 (sf_of_nat n) dt) (S754_zero false)) dt).
(** l.284-293 and l.295-304: the trajectory added, given its times *)
Definition pad_rows (t : traj) (ts : list R) (n : nat) (y : list R) : res traj :=
  let zeros d := V2 (Mat d (repeat (repeat 0 d) n)) in
  new_traj ts (V2 (Mat (mcols (tj_ys t)) (repeat y n))) (Some (zeros (mcols (tj_yds t))))
           (Some (zeros (mcols (tj_ydds t)))) None.
Definition padding (t : traj) (n : nat) (y : res (list R)) : res traj :=
  let* ts := arange n (tj_dt t) in
  let* y := y in
  pad_rows t ts n y.
Definition pad_front (t : traj) (n : nat) : traj * res unit :=
  match padding t n (y_init t) with Ok u => prepend t u | Err e => (t, Err e) end.
Definition pad_end (t : traj) (n : nat) : traj * res unit :=
  match padding t n (y_final t) with Ok u => append t u | Err e => (t, Err e) end.

(** ** polynomials *)
(** l.319-325, one dimension *)
Record poly := Poly { c0 : R; c1 : R; c2 : R; c3 : R; c4 : R; c5 : R }.
Definition coeffs (y v a y' v' a' : R) : poly :=
  Poly y v (a / 2)
       (-10 * y - 6 * v - 2.5 * a + 10 * y' - 4 * v' + 0.5 * a')
       (15 * y + 8 * v + 2 * a - 15 * y' + 7 * v' - a')
       (-6 * y - 3 * v - 0.5 * a + 6 * y' - 3 * v' + 0.5 * a').
(** l.334-341 *)
Definition p_y (p : poly) (t : R) : R := c0 p + c1 p * t + c2 p * t ^ 2 + c3 p * t ^ 3 + c4 p * t ^ 4 + c5 p * t ^ 5.
Definition p_yd (p : poly) (t : R) : R := c1 p + 2 * c2 p * t + 3 * c3 p * t ^ 2 + 4 * c4 p * t ^ 3 + 5 * c5 p * t ^ 4.
Definition p_ydd (p : poly) (t : R) : R := 2 * c2 p + 6 * c3 p * t + 12 * c4 p * t ^ 2 + 20 * c5 p * t ^ 3.
(** l.306-347. Simplification: the boundary conditions are vectors of one size. *)
Definition from_polynomial (ts y v a y' v' a' : list R) : res traj :=
  let d := length y in
  if forallb (fun l => Nat.eqb (length l) d) [v; a; y'; v'; a'] then
    match ts with
    | [] => Err IndexError
    | t0 :: _ =>
      let D := last ts 0 - t0 in
      if Req_EM_T D 0 then Err NonFinite else
      let ps := map (fun i => coeffs (nth i y 0) (nth i v 0) (nth i a 0) (nth i y' 0) (nth i v' 0) (nth i a' 0)) (seq 0 d) in
      let tab f := V2 (Mat d (map (fun t => map (fun p => f p ((t - t0) / D)) ps) ts)) in
      new_traj ts (tab p_y) (Some (tab (fun p t => p_yd p t / D))) (Some (tab (fun p t => p_ydd p t / D ^ 2))) None
    end
  else Err Unmodelled.
(** l.362-364 *)
Fixpoint steps_before (ts : list R) (x : R) : nat :=
  match ts with
  | [] => 0%nat
  | t :: ts' => if Rlt_dec t x then S (steps_before ts' x) else 0%nat
  end.
(** l.349-393. Simplification: the via-point has three times the size of y_from. *)
Definition from_viapoint_polynomial (ts y via : list R) (via_time : R) (y' : list R) : res traj :=
  let d := length y in
  if Nat.eqb (length via) (3 * d) then
    let k := steps_before ts via_time in
    let zero := repeat 0 d in
    let vy := firstn d via in
    let vyd := firstn d (skipn d via) in
    let vydd := firstn d (skipn (2 * d) via) in
    let* t1 := from_polynomial (firstn k ts) y zero zero vy vyd vydd in
    let* t2 := from_polynomial (skipn k ts) vy vyd vydd y' zero zero in
    match append t1 t2 with (t, Ok _) => Ok t | (_, Err e) => Err e end
  else Err Unmodelled.
(** l.395-427 *)
Definition from_min_jerk (ts y y' : list R) : res traj :=
  let d := length y in
  if Nat.eqb (length y') d then
    match ts with
    | [] => Err IndexError
    | _ =>
      let D := last ts 0 in
      if Req_EM_T D 0 then Err NonFinite else
      let tab f := V2 (Mat d (map (fun t => map (fun i => f (nth i y 0) (nth i y' 0 - nth i y 0) (t / D)) (seq 0 d)) ts)) in
      new_traj ts (tab (fun y0 A s => y0 + A * (6 * s ^ 5 - 15 * s ^ 4 + 10 * s ^ 3)))
               (Some (tab (fun _ A s => A / D * (30 * s ^ 4 - 60 * s ^ 3 + 30 * s ^ 2))))
               (Some (tab (fun _ A s => A / (D * D) * (120 * s ^ 3 - 180 * s ^ 2 + 60 * s)))) None
    end
  else Err Unmodelled.

(** ** matrices and files *)
(** np.column_stack((ts, ys, yds, ydds)) and misc; the numbers of rows must agree *)
Definition stack (a b : mat) : res mat :=
  if Nat.eqb (nrows a) (nrows b) then Ok (Mat (mcols a + mcols b) (map2 (fun x y => x ++ y)%list (mrows a) (mrows b)))
  else Err ValueError.
Definition as_col (l : list R) : mat := Mat 1 (map (fun x => [x]) l).
(** l.463-474 *)
Definition as_matrix (t : traj) : res mat :=
  let* m := stack (as_col (tj_ts t)) (tj_ys t) in
  let* m := stack m (tj_yds t) in
  let* m := stack m (tj_ydds t) in
  match tj_misc t with
  | None => Ok m
  | Some (V1 l) => stack m (as_col l)
  | Some (V2 a) => stack m a
  end.
(** l.476-490: column names and data; pandas requires as many names as columns *)
Definition labels_of (s : string) (n : nat) : list string :=
  map (fun d => String.append s (fmt 0 (Z.of_nat d))) (seq 0 n).
Definition as_dataframe (t : traj) : res (list string * mat) :=
  let* k := dim_misc t in
  let names := (["t"%string] ++ labels_of "y" (tj_dim t) ++ labels_of "yd" (tj_dim t) ++ labels_of "ydd" (tj_dim t)
                ++ labels_of "misc" k)%list in
  let* m := as_matrix t in
  if Nat.eqb (length names) (mcols m) then Ok (names, m) else Err ValueError.
(** l.492-518. [rnd] is the number read from the text written for a number. np.loadtxt returns
    vectors for single rows or columns, which have no second dimension. *)
Section Files.
Variable rnd : R -> R.
Definition savetxt (t : traj) : res mat :=
  let* m := as_matrix t in Ok (Mat (mcols m) (map (map rnd) (mrows m))).
Definition loadtxt (file : mat) (n_misc : nat) : res traj :=
  if Nat.ltb (nrows file) 2 then Err ValueError else
  if Nat.ltb (mcols file) 2 then Err ValueError else
  from_matrix file n_misc.
End Files.

(** ** l.520-526 *)
Definition recompute_derivatives (t : traj) : traj * res unit :=
  match diffnc (tj_ys t) (tj_dt t) with
  | Err e => (t, Err e)
  | Ok yds =>
    match diffnc yds (tj_dt t) with
    | Err e => (set_data t (tj_ts t) (tj_ys t) yds (tj_ydds t) (tj_misc t), Err e)
    | Ok ydds => (set_data t (tj_ts t) (tj_ys t) yds ydds (tj_misc t), Ok tt)
    end
  end.
(** l.528-541. [filt] is butter_low_pass_filter with its arguments cutoff and order, given the mean
    time step. *)
Definition low_pass (filt : option R -> mat -> res mat) (t : traj) : traj * res unit :=
  match filt (dt_mean (tj_ts t)) (tj_ys t) with
  | Err e => (t, Err e)
  | Ok ys => recompute_derivatives (set_data t (tj_ts t) ys (tj_yds t) (tj_ydds t) (tj_misc t))
  end.

(** ** histories *)
Inductive tcall :=
  | TCrop (s e : Z) | TCropT (s e : R) | TZero | TMisc (a : nd) | TAppend (u : traj) | TPrepend (u : traj)
  | TPadFront (n : nat) | TPadEnd (n : nat) | TDerive | TFilter (f : option R -> mat -> res mat).
Definition t_do (t : traj) (c : tcall) : traj * res unit :=
  match c with
  | TCrop s e => crop t s e
  | TCropT s e => crop_times t s e
  | TZero => set_start_time_to_zero t
  | TMisc a => set_misc t a
  | TAppend u => append t u
  | TPrepend u => prepend t u
  | TPadFront n => pad_front t n
  | TPadEnd n => pad_end t n
  | TDerive => recompute_derivatives t
  | TFilter f => low_pass f t
  end.
Fixpoint t_run (t : traj) (cs : list tcall) : traj * res unit :=
  match cs with
  | [] => (t, Ok tt)
  | c :: cs' => match t_do t c with (t', Ok _) => t_run t' cs' | (t', Err e) => (t', Err e) end
  end.
