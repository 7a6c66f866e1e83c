(** Model of the function approximators: functionapproximators/basis_functions.py,
    FunctionApproximatorWLS.py, FunctionApproximatorLWR.py, FunctionApproximatorRBFN.py and
    FunctionApproximatorGPR.py. The base class FunctionApproximator is in ParamModel. *)
From Coq Require Import String.
From Verif Require Import Base ParamModel.
Open Scope string_scope.
Open Scope R_scope.

(** ** numpy (no code in /repo) *)
(** arrays as matrices and back; the data of an array are its rows one after the other *)
Fixpoint chunks (c n : nat) (l : list R) : list (list R) :=
  match n with O => [] | S n' => firstn c l :: chunks c n' (skipn c l) end.
Definition vec_arr (l : list R) : arr := Arr [length l] l.
Definition mat_arr (m : mat) : arr := Arr [nrows m; mcols m] (List.concat (mrows m)).
Definition arr_input (a : arr) : res input :=
  match ashape a with
  | [_] => Ok (In1 (adata a))
  | [n; c] => Ok (In2 (Mat c (chunks c n (adata a))))
  | _ => Err Unmodelled
  end.
(** i.shape[0] and i.size *)
Definition shape0 (i : input) : nat := match i with In1 l => length l | In2 m => nrows m end.
Definition isize (i : input) : nat := match i with In1 l => length l | In2 m => nrows m * mcols m end.
Definition idata (i : input) : list R := match i with In1 l => l | In2 m => List.concat (mrows m) end.
(** i.reshape(n, 1) *)
Definition as_column (n : nat) (i : input) : res mat :=
  if Nat.eqb (isize i) n then Ok (Mat 1 (map (fun x => [x]) (idata i))) else Err ValueError.
(** m.reshape(n, -1) *)
Definition reshape (n : nat) (l : list R) : res mat :=
  match n with
  | O => Err ValueError
  | _ => if Nat.eqb (length l mod n) 0 then Ok (Mat (length l / n) (chunks (length l / n) n l))
         else Err ValueError
  end.
Definition mmul (a b : mat) : res mat :=
  if Nat.eqb (mcols a) (nrows b)
  then Ok (mtab (nrows a) (mcols b) (fun i j => sumn (mcols a) (fun k => mget a i k * mget b k j)))
  else Err ValueError.
Definition mtrans (a : mat) : mat := mtab (mcols a) (nrows a) (fun i j => mget a j i).
Definition madd (a b : mat) : mat := mtab (nrows a) (mcols a) (fun i j => mget a i j + mget b i j).
Definition mscal (c : R) (a : mat) : mat := mtab (nrows a) (mcols a) (fun i j => c * mget a i j).
Definition mdiag (l : list R) : mat :=
  mtab (length l) (length l) (fun i j => if Nat.eqb i j then nth i l 0 else 0).
Definition meye (n : nat) : mat := mtab n n (fun i j => if Nat.eqb i j then 1 else 0).
Definition mcolumn (m : mat) (j : nat) : res (list R) :=
  if Nat.ltb j (mcols m) then Ok (map (fun i => mget m i j) (seq 0 (nrows m))) else Err IndexError.

(** np.linalg.inv: Gauss-Jordan elimination, in exact arithmetic, of (a | b); it raises LinAlgError
    when no pivot is left. *)
Definition rowop := nat -> nat -> R.
Fixpoint pivot (a : rowop) (k n : nat) : option nat :=      (* the largest p < n, p >= k, a p k <> 0 *)
  match n with
  | O => None
  | S p => if Nat.ltb p k then None
           else if Req_EM_T (a p k) 0 then pivot a k p else Some p
  end.
Definition swap_rows (p k : nat) (a : rowop) : rowop :=
  fun i j => if Nat.eqb i p then a k j else if Nat.eqb i k then a p j else a i j.
Definition eliminate (k : nat) (a b : rowop) : rowop :=   (* the effect on b of clearing column k of a *)
  fun i j => if Nat.eqb i k then b k j / a k k else b i j - a i k * (b k j / a k k).
Fixpoint gauss (n k todo : nat) (a b : rowop) : res rowop :=
  match todo with
  | O => Ok b
  | S todo' =>
    match pivot a k n with
    | None => Err LinAlgError
    | Some p => let a1 := swap_rows p k a in let b1 := swap_rows p k b in
                gauss n (S k) todo' (eliminate k a1 a1) (eliminate k a1 b1)
    end
  end.
Definition inv (m : mat) : res mat :=
  let n := nrows m in
  if Nat.eqb (mcols m) n
  then let* b := gauss n 0 n (mget m) (mget (meye n)) in Ok (mtab n n b)
  else Err LinAlgError.

(** np.linspace(a, b, n) for n >= 0 *)
Definition linspace (a b : R) (n : nat) : list R :=
  match n with
  | S (S k) => map (fun i => a + INR i * ((b - a) / INR (S k))) (seq 0 n)
  | _ => repeat a n
  end.

(** ** basis_functions.py *)
Section Exponential.
(** np.exp. The theorems say which of its properties they need: np.exp underflows to 0. *)
Variable ex : R -> R.

(** l.96: np.exp(-0.5 * np.square(x - c) / (w * w)); division by zero gives -inf, whose exponential
    is 0, or nan *)
Definition factor (x c w : R) : res R :=
  if Req_EM_T w 0 then (if Req_EM_T x c then Err NonFinite else Ok 0)
  else Ok (ex (- 0.5 * (x - c)^2 / (w * w))).
Fixpoint prodM (n : nat) (f : nat -> res R) : res R :=
  match n with O => Ok 1 | S k => let* a := prodM k f in let* b := f k in Ok (a * b) end.
(** l.83-96, the activation of basis function [b] for sample [i] *)
Definition activation (n_dims : nat) (x c w : mat) (i b : nat) : res R :=
  prodM n_dims (fun d => factor (mget x i d) (mget c b d) (mget w b d)).
(** l.98-108, for one row *)
Definition normalize (row : list R) : list R :=
  let s := rsum row in
  if Req_EM_T s 0 then map (fun _ => 1 / INR (length row)) row else map (fun a => a / s) row.
(** l.54-110 *)
Definition activations (inputs centers widths : input) (normalized : bool) : res mat :=
  let n_samples := shape0 inputs in
  let n_bfs := shape0 centers in
  let n_dims := match centers with In1 _ => 1%nat | In2 m => mcols m end in
  let* (c, w, x) :=
    if Nat.eqb n_dims 1 then
      let* c := as_column n_bfs centers in let* w := as_column n_bfs widths in
      let* x := as_column n_samples inputs in Ok (c, w, x)
    else match centers, widths, inputs with
         | In2 c, In2 w, In2 x => Ok (c, w, x)
         | _, _, _ => if (Nat.eqb n_bfs 1 && normalized)%bool then Err Unmodelled else Err IndexError
         end in
  if (normalized && Nat.eqb n_bfs 1)%bool then Ok (mtab n_samples 1 (fun _ _ => 1))
  else if (Nat.ltb (nrows w) n_bfs || Nat.ltb (mcols w) n_dims || Nat.ltb (mcols x) n_dims)%bool
  then Err IndexError
  else
    let* rows := mapM (fun i => mapM (activation n_dims x c w i) (seq 0 n_bfs)) (seq 0 n_samples) in
    Ok (Mat n_bfs (if normalized then map normalize rows else rows)).
End Exponential.

(** l.157: np.sqrt(np.square(difference) / (-8 * np.log(h))). Negative heights, and heights of 1 or
    more, give nan. *)
Definition width (h diff : R) : res R :=
  if Rlt_dec h 0 then Err NonFinite
  else if Req_EM_T h 0 then Ok 0
  else if Rlt_dec h 1 then Ok (sqrt (diff^2 / (- 8 * ln h)))
  else if Req_EM_T h 1 then Err NonFinite
  else if Req_EM_T diff 0 then Ok 0 else Err NonFinite.
(** l.142-160 *)
Definition widths_1d (h : R) (centers : list R) : res (list R) :=
  let n := length centers in
  match n with
  | S (S k) =>
    let* ws := mapM (fun cc => width h (nth (S cc) centers 0 - nth cc centers 0)) (seq 0 (S k)) in
    Ok (ws ++ [nth k ws 0])%list
  | _ => Ok (repeat 1 n)
  end.
(** l.123-126: inputs.min(axis=0) and max *)
Definition column_of (i : input) (d : nat) : list R :=
  match i with In1 l => l | In2 m => map (fun r => nth d r 0) (mrows m) end.
Definition n_dims_of (i : input) : nat := match i with In1 _ => 1%nat | In2 m => mcols m end.
Definition min_val (i : input) (d : nat) : res R :=
  match column_of i d with [] => Err ValueError | x :: l => Ok (rmin_list x l) end.
Definition max_val (i : input) (d : nat) : res R :=
  match column_of i d with [] => Err ValueError | x :: l => Ok (rmax_list x l) end.
(** l.127-133 *)
Definition bfs_per_dim (n_dims : nat) (n_bfs : list nat) : res (list nat) :=
  if Nat.ltb (length n_bfs) n_dims
  then match n_bfs with [n] => Ok (repeat n n_dims) | _ => Err ValueError end
  else Ok n_bfs.
(** l.182-187: count up by one, with carry *)
Definition carry (dmax : list nat) (digit : list nat) (i : nat) : list nat :=
  if Nat.leb (nth i dmax 0%nat) (nth i digit 0%nat)
  then set_nth (set_nth digit i 0%nat) (i - 1) (S (nth (i - 1) digit 0%nat))
  else digit.
Definition increment (n_dims : nat) (dmax digit : list nat) : list nat :=
  fold_left (carry dmax) (rev (seq 1 (n_dims - 1)))
            (set_nth digit (n_dims - 1) (S (nth (n_dims - 1) digit 0%nat))).
(** l.173-187, the rows written by the loop. [n_centers] is the number of rows allocated.
    The recursion is bounded by [fuel]: the loop ends before (C65). *)
Fixpoint grid_loop (fuel n_dims n_centers : nat) (dmax : list nat) (vals : list (list R * list R))
         (digit : list nat) (rows : list (list R * list R)) : res (list (list R * list R)) :=
  match fuel with
  | O => Err Unmodelled
  | S fuel' =>
    let* d0 := nth_res digit 0 in
    if Nat.ltb d0 (nth 0 dmax 0%nat) then
      if Nat.ltb (length rows) n_centers then
        let* cs := mapM (fun i => nth_res (fst (nth i vals ([], []))) (nth i digit 0%nat)) (seq 0 n_dims) in
        let* ws := mapM (fun i => nth_res (snd (nth i vals ([], []))) (nth i digit 0%nat)) (seq 0 n_dims) in
        grid_loop fuel' n_dims n_centers dmax vals (increment n_dims dmax digit) (rows ++ [(cs, ws)])%list
      else Err IndexError
    else Ok rows
  end.
(** l.113-189. Simplifications: the numbers of basis functions are natural numbers in an array with
    one dimension; rows that the loop leaves untouched keep the zeros of np.zeros. *)
Definition get_centers_and_widths (inputs : input) (n_bfs : list nat) (height : R) : res (mat * mat) :=
  let n_dims := n_dims_of inputs in
  if Nat.eqb (shape0 inputs) 0 then Err ValueError else
  let* n_bfs := bfs_per_dim n_dims n_bfs in
  let* vals := mapM (fun d =>
    let* lo := min_val inputs d in
    let* hi := max_val inputs d in
    let cs := linspace lo hi (nth d n_bfs 0%nat) in
    let* ws := widths_1d height cs in
    Ok (cs, ws)) (seq 0 n_dims) in
  let n_centers := prod n_bfs in
  let* rows := grid_loop (S n_centers) n_dims n_centers n_bfs vals (repeat 0%nat n_dims) [] in
  let pad := repeat (repeat 0 n_dims) (n_centers - length rows) in
  Ok (Mat n_dims (map fst rows ++ pad)%list, Mat n_dims (map snd rows ++ pad)%list).

(** ** FunctionApproximatorWLS.py *)
Definition targets_column (t : input) : mat :=
  match t with In1 l => Mat 1 (map (fun x => [x]) l) | In2 m => m end.
(** the result of np.dot(..., targets), as an array *)
Definition beta_arr (t : input) (l : list R) : arr :=
  match t with In1 _ => Arr [length l] l | In2 _ => Arr [length l; 1%nat] l end.
Definition with_ones (m : mat) : mat := Mat (S (mcols m)) (map (fun r => r ++ [1])%list (mrows m)).
(** l.43-88 _train *)
Definition wls_train (use_offset : bool) (regularization : R) (weights : option (list R))
           (targets : input) (inputs : mat) : res (list (string * pval)) :=
  let n_samples := isize targets in
  let* inputs := reshape n_samples (List.concat (mrows inputs)) in
  let X := if use_offset then with_ones inputs else inputs in
  let W := match weights with None => meye n_samples | Some w => mdiag w end in
  let Gamma := mscal regularization (meye (mcols X)) in
  let* XtW := mmul (mtrans X) W in
  let* XtWX := mmul XtW X in
  let* i := inv (madd XtWX Gamma) in
  let* iXt := mmul i (mtrans X) in
  let* iXtW := mmul iXt W in
  let* beta := mmul iXtW (targets_column targets) in
  let beta := List.concat (mrows beta) in
  Ok (if use_offset
      then [("slope", PArr (beta_arr targets (removelast beta)));
            ("offset", PArr (Arr (match targets with In1 _ => [] | In2 _ => [1%nat] end) [last beta 0]))]
      else [("slope", PArr (beta_arr targets beta))]).

Definition param_arr (m : list (string * pval)) (k : string) : res arr :=
  match lookup m k with
  | None => Err KeyError
  | Some (PArr a) => Ok a
  | Some _ => Err AttributeError
  end.
(** one number out of an array with one element *)
Definition the_number (a : arr) : res R := match adata a with [r] => Ok r | _ => Err Unmodelled end.
(** l.91-103 _predict; the slope has shape (n,) or, for targets with shape (n,1), shape (n,1) *)
Definition wls_predict (ps : list (string * pval)) (inputs : mat) : res input :=
  let* slope := param_arr ps "slope" in
  let* offset := match lookup ps "offset" with
                 | None => Ok 0
                 | Some (PArr a) => the_number a
                 | Some _ => Err Unmodelled
                 end in
  match ashape slope with
  | [q] => if Nat.eqb (mcols inputs) q
           then Ok (In1 (map (fun r => rsum (map2 Rmult r (adata slope)) + offset) (mrows inputs)))
           else Err ValueError
  | [q; 1%nat] => if Nat.eqb (mcols inputs) 1
                  then Ok (In2 (mtab (nrows inputs) q
                                     (fun i j => mget inputs i 0 * nth j (adata slope) 0 + offset)))
                  else Err ValueError
  | _ => Err Unmodelled
  end.

Section Approximators.
Variable ex : R -> R.

(** activations(inputs, centers=ps[...], widths=ps[...], normalized=...), LWR.py l.79-88, RBFN.py
    l.78-81 *)
Definition fa_activations (normalized : bool) (ps : list (string * pval)) (inputs : mat) : res mat :=
  let* c := param_arr ps "centers" in
  let* c := arr_input c in
  let* w := param_arr ps "widths" in
  let* w := arr_input w in
  activations ex (In2 inputs) c w normalized.

(** ** FunctionApproximatorRBFN.py *)
(** l.51-75 _train *)
Definition rbfn_train (n_bfs_per_dim : list nat) (height regularization : R) (targets : input) (inputs : mat)
  : res (list (string * pval)) :=
  let n_bfs := prod n_bfs_per_dim in
  let* (c, w) := get_centers_and_widths (In2 inputs) n_bfs_per_dim height in
  let* acts := fa_activations false [("centers", PArr (mat_arr c)); ("widths", PArr (mat_arr w))] inputs in
  let* acts := as_columns (In2 acts) in      (* in train() *)
  let* wls := wls_train false regularization None targets acts in
  let* slope := param_arr wls "slope" in
  let* weights := reshape n_bfs (adata slope) in
  Ok [("centers", PArr (mat_arr c)); ("widths", PArr (mat_arr w)); ("weights", PArr (mat_arr weights))].

(** acts[:, ii] * weights[ii] as a column of an array with one row per sample: weights[ii] is a
    number, or an array of as many numbers as samples, or an array of one number *)
Definition weight_at (n_samples : nat) (weights : arr) (ii i : nat) : res R :=
  match ashape weights with
  | [_] => nth_res (adata weights) ii
  | [n; k] => if Nat.ltb ii n
              then if Nat.eqb k 1 then Ok (nth ii (adata weights) 0)
                   else if Nat.eqb k n_samples then Ok (nth (ii * k + i) (adata weights) 0)
                   else Err ValueError
              else Err IndexError
  | _ => Err Unmodelled
  end.
(** RBFN.py l.84-89, GPR.py l.69-78: the weighted activations, summed *)
Definition weighted_sum (acts : mat) (weights : arr) : res (list R) :=
  let* ws := mapM (fun ii => mapM (weight_at (nrows acts) weights ii) (seq 0 (nrows acts)))
                  (seq 0 (mcols acts)) in
  Ok (map (fun i => sumn (mcols acts) (fun ii => mget acts i ii * nth i (nth ii ws []) 0))
          (seq 0 (nrows acts))).
(** l.84-89 _predict *)
Definition rbfn_predict (ps : list (string * pval)) (inputs : mat) : res (list R) :=
  let* acts := fa_activations false ps inputs in
  let* weights := param_arr ps "weights" in
  weighted_sum acts weights.

(** ** FunctionApproximatorLWR.py *)
(** l.70: slopes[i_kernel, :] = slope *)
Definition slope_row (n_dims : nat) (slope : arr) : res (list R) :=
  match ashape slope with
  | [q] => if Nat.eqb q n_dims then Ok (adata slope)
           else if Nat.eqb q 1 then Ok (repeat (nth 0 (adata slope) 0) n_dims) else Err ValueError
  | [q; 1%nat] => if Nat.eqb q 1 then Ok (repeat (nth 0 (adata slope) 0) n_dims) else Err ValueError
  | _ => Err Unmodelled
  end.
(** l.44-76 _train. FunctionApproximatorWLS(wls_meta_params), l.61, passes the dictionary as
    use_offset, which is true, and leaves regularization at its default 0.0. *)
Definition lwr_train (n_bfs_per_dim : list nat) (height regularization : R) (targets : input) (inputs : mat)
  : res (list (string * pval)) :=
  let* (c, w) := get_centers_and_widths (In2 inputs) n_bfs_per_dim height in
  let n_bfs := prod n_bfs_per_dim in
  let n_dims := mcols c in
  let* acts := fa_activations true [("centers", PArr (mat_arr c)); ("widths", PArr (mat_arr w))] inputs in
  let* lines := mapM (fun i_kernel =>
    let* weights := mcolumn acts i_kernel in
    let* wls := wls_train true 0 (Some weights) targets inputs in
    let* slope := param_arr wls "slope" in
    let* slope := slope_row n_dims slope in
    let* offset := param_arr wls "offset" in
    let* offset := the_number offset in
    Ok (slope, offset)) (seq 0 n_bfs) in
  Ok [("centers", PArr (mat_arr c)); ("widths", PArr (mat_arr w));
      ("offsets", PArr (Arr [n_bfs; 1%nat] (map snd lines)));
      ("slopes", PArr (Arr [n_bfs; n_dims] (List.concat (map fst lines))))].
(** l.91-107 _get_lines *)
Definition get_lines (ps : list (string * pval)) (inputs : mat) : res mat :=
  let* slopes := param_arr ps "slopes" in
  let* slopes := match ashape slopes with
                 | [n; d] => Ok (Mat d (chunks d n (adata slopes)))
                 | _ => Err Unmodelled
                 end in
  let* offsets := param_arr ps "offsets" in
  let n_lines := length (adata offsets) in
  if Nat.ltb (nrows slopes) n_lines then Err IndexError
  else if (negb (Nat.eqb (mcols inputs) (mcols slopes)) && negb (Nat.eqb n_lines 0))%bool then Err ValueError
  else Ok (mtab (nrows inputs) n_lines
                (fun i l => rsum (map2 Rmult (nth i (mrows inputs) []) (nth l (mrows slopes) []))
                            + nth l (adata offsets) 0)).
(** lines * activations, with numpy's broadcasting of single columns *)
Definition mtimes (a b : mat) : res mat :=
  if Nat.eqb (mcols a) (mcols b) then Ok (mtab (nrows a) (mcols a) (fun i j => mget a i j * mget b i j))
  else if Nat.eqb (mcols a) 1 then Ok (mtab (nrows a) (mcols b) (fun i j => mget a i 0 * mget b i j))
  else if Nat.eqb (mcols b) 1 then Ok (mtab (nrows a) (mcols a) (fun i j => mget a i j * mget b i 0))
  else Err ValueError.
(** l.110-121 _predict *)
Definition lwr_predict (ps : list (string * pval)) (inputs : mat) : res (list R) :=
  let* lines := get_lines ps inputs in
  let* acts := fa_activations true ps inputs in
  let* p := mtimes lines acts in
  Ok (map rsum (mrows p)).

(** ** FunctionApproximatorGPR.py *)
(** l.42-46 _activations *)
Definition gpr_activations (ps : list (string * pval)) (inputs : mat) : res mat :=
  let* c := param_arr ps "inputs" in
  let* c := arr_input c in
  let* w := param_arr ps "lengths" in
  let* w := arr_input w in
  let* acts := activations ex (In2 inputs) c w false in
  match lookup ps "max_covariance" with
  | None => Err KeyError
  | Some (PFloat r) => Ok (mscal r acts)
  | Some _ => Err Unmodelled
  end.
(** l.49-66 _train; np.full broadcasts the lengths *)
Definition gpr_train (max_covariance : R) (lengths : list R) (targets : input) (inputs : mat)
  : res (list (string * pval)) :=
  let* ls := if Nat.eqb (length lengths) (mcols inputs) then Ok lengths
             else match lengths with [l] => Ok (repeat l (mcols inputs)) | _ => Err ValueError end in
  let ps := [("inputs", PArr (mat_arr inputs));
             ("lengths", PArr (mat_arr (Mat (mcols inputs) (repeat ls (nrows inputs)))));
             ("max_covariance", PFloat max_covariance)] in
  let* gram := gpr_activations ps inputs in
  let* gram_inv := inv gram in
  let* git := mmul gram_inv (targets_column targets) in
  Ok (ps ++ [("gram_inv_targets",
              PArr (match targets with In1 _ => vec_arr (List.concat (mrows git)) | In2 _ => mat_arr git end))])%list.
(** l.69-78 _predict *)
Definition gpr_predict (ps : list (string * pval)) (inputs : mat) : res (list R) :=
  let* weights := param_arr ps "gram_inv_targets" in
  let* acts := gpr_activations ps inputs in
  weighted_sum acts weights.
End Approximators.
