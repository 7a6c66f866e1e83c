(** Model of the C++ trajectories: src/dmp/Trajectory.cpp, src/dmp/Trajectory.hpp and
    src/eigenutils/eigen_file_io.tpp, and of the text files exchanged with dmpbbo/dmps/Trajectory.py.

    Outcomes as in CppModel.v: RuntimeError stands for a failed assertion, an index out of bounds, a
    division by zero of integers or an exhausted memory, NonFinite for nan or inf. The flag [debug] tells
    whether assertions are compiled in; it is used for the assertions that compare data. A failed
    assertion about sizes is RuntimeError in both cases (undefined behaviour without assertions). *)
From Coq Require Import String.
From Verif Require Import Base FaModel TrajModel.
Open Scope R_scope.

(** Trajectory.hpp l.222-226 *)
Record ctraj := CTraj { ct_ts : list R; ct_ys : mat; ct_yds : mat; ct_ydds : mat; ct_misc : mat }.
(** Trajectory.cpp l.38 *)
Definition c_empty : ctraj := CTraj [] (Mat 0 []) (Mat 0 []) (Mat 0 []) (Mat 0 []).
(** Trajectory.hpp l.106, l.117, l.122 *)
Definition c_length (c : ctraj) : nat := length (ct_ts c).
Definition c_dim (c : ctraj) : nat := mcols (ct_ys c).
Definition c_dim_misc (c : ctraj) : nat := mcols (ct_misc c).
(** an assertion about sizes *)
Definition must (b : bool) : res unit := if b then Ok tt else Err RuntimeError.

(** Trajectory.cpp l.40-60 *)
Definition c_new (ts : list R) (ys yds ydds misc : mat) : res ctraj :=
  let n := length ts in
  let* _ := must (Nat.eqb n (nrows ys)) in
  let* _ := must (Nat.eqb n (nrows yds)) in
  let* _ := must (Nat.eqb n (nrows ydds)) in
  let misc := if Nat.eqb (mcols misc) 0 then Mat 0 (repeat [] n) else misc in
  let* _ := must (Nat.eqb n (nrows misc)) in
  let* _ := must (Nat.eqb (mcols ys) (mcols yds)) in
  let* _ := must (Nat.eqb (mcols ys) (mcols ydds)) in
  Ok (CTraj ts ys yds ydds misc).
(** the argument misc by default (Trajectory.hpp l.63) *)
Definition no_misc : mat := Mat 0 [].

(** Trajectory.cpp l.62-69 *)
Definition c_duration (c : ctraj) : R :=
  match ct_ts c with [] => 0 | a :: _ => last (ct_ts c) 0 - a end.
(** Trajectory.cpp l.71-84; the message for other numbers of rows is not modelled *)
Definition c_set_misc (c : ctraj) (m : mat) : ctraj :=
  if Nat.eqb (nrows m) (c_length c) then CTraj (ct_ts c) (ct_ys c) (ct_yds c) (ct_ydds c) m else
  if Nat.eqb (nrows m) 1
  then CTraj (ct_ts c) (ct_ys c) (ct_yds c) (ct_ydds c) (Mat (mcols m) (repeat (nth 0 (mrows m) []) (c_length c)))
  else c.
(** Trajectory.cpp l.140-143; maxCoeff and minCoeff of nothing assert *)
Definition c_range (c : ctraj) : res (list R) :=
  match mrows (ct_ys c) with
  | [] => Err RuntimeError
  | r :: rows =>
    Ok (map (fun j => rmax_list (nth j r 0) (col j rows) - rmin_list (nth j r 0) (col j rows)) (seq 0 (c_dim c)))
  end.

(** ** append *)
(** Eigen's isZero and isApprox of vectors, with the default precision for double *)
Definition eps : R := / 1000000000000.
Definition is_zero (a : list R) : bool := forallb (fun x => if Rle_dec (Rabs x) eps then true else false) a.
Definition sq (a : list R) : R := rsum (map (fun x => x * x) a).
Definition is_approx (a b : list R) : bool :=
  if Rle_dec (sq (map2 Rminus a b)) (eps * eps * Rmin (sq a) (sq b)) then true else false.
(** l.92-109, for one of positions, velocities and accelerations *)
Definition same_rows (a b : list R) : bool :=
  if (is_zero a || is_zero b)%bool then (is_zero a && is_zero b)%bool else is_approx a b.
(** new_ys << ys_, block(1, 0, length - 1, dim) *)
Definition c_join (a b : mat) : mat := Mat (mcols a) (mrows a ++ tl (mrows b)).
(** Trajectory.cpp l.86-138. Simplification: a failed assertion about the misc variables (l.129) leaves
    no object. *)
Definition c_append (debug : bool) (c u : ctraj) : res ctraj :=
  let* _ := must (Nat.eqb (c_dim c) (c_dim u)) in
  match ct_ts c, ct_ts u with
  | _ :: _, u0 :: us =>
    let seam f := same_rows (last (mrows (f c)) []) (nth 0 (mrows (f u)) []) in
    let same := ((if Req_EM_T (last (ct_ts c) 0) u0 then true else false) && seam ct_ys && seam ct_yds && seam ct_ydds)%bool in
    let* _ := must (negb debug || same) in
    let* _ := must (Nat.eqb (c_dim_misc c) (c_dim_misc u)) in
    let ts := (ct_ts c ++ us)%list in
    Ok (CTraj ts (c_join (ct_ys c) (ct_ys u)) (c_join (ct_yds c) (ct_yds u)) (c_join (ct_ydds c) (ct_ydds u))
              (if Nat.eqb (c_dim_misc c) 0 then Mat 0 (repeat [] (length ts)) else c_join (ct_misc c) (ct_misc u)))
  | _, _ => Err RuntimeError
  end.

(** ** generators *)
(** Trajectory.cpp l.145-175 *)
Definition c_min_jerk (ts y y' : list R) : res ctraj :=
  let d := length y in
  let* _ := must (Nat.eqb (length y') d) in
  match ts with
  | [] => Err RuntimeError
  | _ =>
    let D := last ts 0 in
    if Req_EM_T D 0 then Err NonFinite else
    let tab f := Mat d (map (fun t => map (fun i => f (nth i y 0) (nth i y' 0 - nth i y 0) (t / D)) (seq 0 d)) ts) in
    c_new ts (tab (fun y0 A s => y0 + A * (6 * s ^ 5 - 15 * s ^ 4 + 10 * s ^ 3)))
          (tab (fun _ A s => A / D * (30 * s ^ 4 - 60 * s ^ 3 + 30 * s ^ 2)))
          (tab (fun _ A s => A / (D * D) * (120 * s ^ 3 - 180 * s ^ 2 + 60 * s))) no_misc
  end.
(** Trajectory.cpp l.182-190, one dimension *)
Definition c_coeffs (y v a y' v' a' : R) : poly :=
  Poly y v (a / 2)
       (-10 * y - 6 * v - 2.5 * a + 10 * y' - 4 * v' + 0.5 * a')
       (15 * y + 8 * v + 2 * a - 15 * y' + 7 * v' - a')
       (-6 * y - 3 * v - 0.5 * a + 6 * y' - 3 * v' + 0.5 * a').
(** Trajectory.cpp l.177-213 *)
Definition c_polynomial (ts y v a y' v' a' : list R) : res ctraj :=
  let d := length y in
  let* _ := must (forallb (fun l => Nat.eqb (length l) d) [v; a; y'; v'; a']) in
  match ts with
  | [] => Err RuntimeError
  | t0 :: _ =>
    let D := last ts 0 - t0 in
    if Req_EM_T D 0 then Err NonFinite else
    let ps := map (fun i => c_coeffs (nth i y 0) (nth i v 0) (nth i a 0) (nth i y' 0) (nth i v' 0) (nth i a' 0)) (seq 0 d) in
    let tab (f : poly -> R -> R) := Mat d (map (fun t => map (fun p => f p ((t - t0) / D)) ps) ts) in
    c_new ts
      (tab (fun p t => c0 p + c1 p * t + c2 p * t ^ 2 + c3 p * t ^ 3 + c4 p * t ^ 4 + c5 p * t ^ 5))
      (tab (fun p t => (c1 p + 2 * c2 p * t + 3 * c3 p * t ^ 2 + 4 * c4 p * t ^ 3 + 5 * c5 p * t ^ 4) / D))
      (tab (fun p t => (2 * c2 p + 6 * c3 p * t + 12 * c4 p * t ^ 2 + 20 * c5 p * t ^ 3) / D ^ 2)) no_misc
  end.
(** Trajectory.cpp l.215-257 *)
Definition c_viapoint (debug : bool) (ts y via : list R) (via_time : R) (y' : list R) : res ctraj :=
  let d := length y in
  let* _ := must (Nat.eqb d (length y')) in
  let* _ := must (Nat.eqb (3 * d) (length via)) in
  let k := steps_before ts via_time in
  if Nat.leb (length ts) k then Ok c_empty else
  let zero := repeat 0 d in
  let vy := firstn d via in
  let vyd := firstn d (skipn d via) in
  let vydd := firstn d (skipn (2 * d) via) in
  let* t1 := c_polynomial (firstn (k + 1) ts) y zero zero vy vyd vydd in
  let* t2 := c_polynomial (skipn k ts) vy vyd vydd y' zero zero in
  c_append debug t1 t2.

(** ** matrices and files *)
(** as_matrix << ... *)
Definition c_stack (a b : mat) : res mat :=
  let* _ := must (Nat.eqb (nrows a) (nrows b)) in
  Ok (Mat (mcols a + mcols b) (map2 (fun x y => x ++ y)%list (mrows a) (mrows b))).
(** Trajectory.cpp l.259-263 *)
Definition c_matrix (c : ctraj) : res mat :=
  let* m := c_stack (as_col (ct_ts c)) (ct_ys c) in
  let* m := c_stack m (ct_yds c) in
  let* m := c_stack m (ct_ydds c) in
  c_stack m (ct_misc c).

(** A line of a text file: the words between blanks, None for a word that does not start with a decimal
    number (such as nan); and whether there is a blank after the last word. *)
Record line := Line { words : list (option R); blank : bool }.
(** [rnd] is the number read from the text written for a number: six decimals for std::fixed, seven for
    the format of np.savetxt in Trajectory.savetxt. *)
Section Files.
Variable rnd : R -> R.
(** eigen_file_io.tpp l.130-132: Eigen writes rows of right-aligned numbers, separated by line ends, and
    nothing at all for a matrix without entries *)
Definition c_text (m : mat) : list line :=
  if Nat.eqb (nrows m * mcols m) 0 then [] else map (fun r => Line (map (fun x => Some (rnd x)) r) false) (mrows m).
(** np.savetxt *)
Definition py_text (m : mat) : list line := map (fun r => Line (map (fun x => Some (rnd x)) r) false) (mrows m).
End Files.
(** eigen_file_io.tpp l.53-56: the numbers pushed for one line. [d] is the variable d, None before it is
    assigned. When nothing but blanks is left, the extraction fails and leaves d as it is, and d is
    pushed. A word that is not a number is never consumed, so that the loop goes on until the memory is
    exhausted. *)
Fixpoint read_words (d : option R) (ws : list (option R)) (trailing : bool) : res (list R * option R) :=
  match ws with
  | [] => match d with Some x => Ok ([x], d) | None => Err Unmodelled end
  | w :: ws' =>
    match w with
    | None => Err RuntimeError
    | Some x =>
      match ws', trailing with
      | [], false => Ok ([x], Some x)
      | _, _ => let* (v, d') := read_words (Some x) ws' trailing in Ok (x :: v, d')
      end
    end
  end.
(** l.51-58 *)
Fixpoint read_lines (d : option R) (ls : list line) : res (list R) :=
  match ls with
  | [] => Ok []
  | l :: ls' =>
    let* (v, d') := read_words d (words l) (blank l) in
    let* vs := read_lines d' ls' in
    Ok (v ++ vs)%list
  end.
(** l.61-68; a file without lines is a division by zero *)
Definition c_load (ls : list line) : res mat :=
  let* v := read_lines None ls in
  let n := length ls in
  let* _ := must (negb (Nat.eqb n 0)) in
  let c := (length v / n)%nat in
  Ok (Mat c (chunks c n v)).
(** traj_matrix.block(0, a, n_time_steps, k): an assertion if there are not so many columns *)
Definition c_block (m : mat) (a k : nat) : res mat :=
  let* _ := must (Nat.leb (a + k) (mcols m)) in
  Ok (Mat k (map (fun r => firstn k (skipn a r)) (mrows m))).
(** Trajectory.cpp l.292-316, for a file that can be opened. Simplification: more misc columns than
    columns are outside the model. *)
Definition c_read (ls : list line) (n_misc : nat) : res ctraj :=
  let* m := c_load ls in
  if Nat.eqb (mcols m) 0 then Err RuntimeError else
  if Nat.ltb (mcols m - 1) n_misc then Err Unmodelled else
  let d := ((mcols m - 1 - n_misc) / 3)%nat in
  let* ts := c_block m 0 1 in
  let* ys := c_block m (1 + 0 * d) d in
  let* yds := c_block m (1 + 1 * d) d in
  let* ydds := c_block m (1 + 2 * d) d in
  let* misc := c_block m (1 + 3 * d) n_misc in
  c_new (col 0 (mrows ts)) ys yds ydds misc.

(** np.loadtxt: empty lines are skipped, and all other lines must have the same number of words *)
Definition full (l : line) : bool := match words l with [] => false | _ => true end.
Definition number (w : option R) : res R := match w with Some x => Ok x | None => Err NonFinite end.
Definition py_table (ls : list line) : res mat :=
  let ls := filter full ls in
  let* rows := mapM (fun l => mapM number (words l)) ls in
  let c := match rows with [] => 0%nat | r :: _ => length r end in
  if forallb (fun r => Nat.eqb (length r) c) rows then Ok (Mat c rows) else Err ValueError.
(** Trajectory.py l.503-518 *)
Definition py_read (ls : list line) (n_misc : nat) : res traj :=
  let* m := py_table ls in loadtxt m n_misc.
(** Trajectory.py l.492-501 *)
Definition py_save (rnd : R -> R) (t : traj) : res (list line) :=
  let* m := as_matrix t in Ok (py_text rnd m).
(** Trajectory.cpp l.276-290 without the file system *)
Definition c_save (rnd : R -> R) (c : ctraj) : res (list line) :=
  let* m := c_matrix c in Ok (c_text rnd m).

(** ** the file system *)
Section Disk.
(** which files can be opened for writing, and which directories can be created *)
Variables writable creatable : string -> bool.
Record disk := Disk { files : string -> option (list line); dirs : string -> bool }.
Definition put (s : disk) (f : string) (ls : list line) : disk :=
  Disk (fun g => if String.eqb g f then Some ls else files s g) (dirs s).
(** eigen_file_io.tpp l.107-135 *)
Definition save_file (s : disk) (f : string) (ls : list line) (overwrite : bool) : disk * bool :=
  if (match files s f with Some _ => negb overwrite | None => false end) then (s, false) else
  if negb (writable f) then (s, false) else (put s f ls, true).
(** eigen_file_io.tpp l.78-99 *)
Definition save_in_dir (s : disk) (dir f : string) (ls : list line) (overwrite : bool) : disk * bool :=
  if String.eqb dir EmptyString then (s, false) else
  let mk := if dirs s dir then (s, true)
            else if creatable dir then (Disk (files s) (fun g => if String.eqb g dir then true else dirs s g), true) else (s, false) in
  match mk with
  | (s, false) => (s, false)
  | (s, true) => let (s, _) := save_file s (dir ++ "/" ++ f)%string ls overwrite in (s, true)
  end.
End Disk.
