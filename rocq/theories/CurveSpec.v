(** Specification vocabulary for learning curves. *)
From Coq Require Import String Ascii NArith.
From Verif Require Import Base SessionModel SessionSpec UpdatersModel CurveModel.
Open Scope R_scope.

(** what the session shows about update i *)
Definition shows (st : state) (name : string) (iu is : idx) (v : val) : Prop :=
  returns (ask vload (fst st) (snd st) name iu is) v.

(** the components of a cost: a number is a single component *)
Inductive components : val -> list R -> Prop :=
  | comp_int z : components (VInt z) [IZR z]
  | comp_float r : components (VFloat r) [r]
  | comp_arr0 r : components (VArr0 r) [r]
  | comp_arr1 l : components (VArr1 l) l.

(** costs with the same number m of components each, as rows of a table *)
Inductive table : list cost -> nat -> list (list R) -> Prop :=
  | table_numbers rs : table (map CScalar rs) 1 (map (fun r => [r]) rs)
  | table_vectors m rows : rows <> [] -> Forall (fun r => length r = m) rows -> table (map CVec rows) m rows.

(** the row of column averages of a non-empty table with m columns *)
Definition column_means (m : nat) (rows : list (list R)) (means : list R) : Prop :=
  rows <> [] /\ length means = m /\
  forall j, (j < m)%nat -> nth j means 0 = rsum (map (fun r => nth j r 0) rows) / INR (length rows).

(** the row of update i that the session's contents determine: from the stored evaluations if there
    are any, from the stored list of the samples' costs, or from the separately stored costs *)
Inductive curve_row (st : state) (i : Z) : list R -> Prop :=
  | row_from_eval v row :
      exists_ (fst st) (snd st) "cost" (IInt 0) (IStr "eval") = true ->
      shows st "cost" (IInt i) (IStr "eval") v -> components v row ->
      curve_row st i (IZR i * IZR (s_n (snd st)) :: row)
  | row_from_list l m rows row :
      exists_ (fst st) (snd st) "cost" (IInt 0) (IStr "eval") = false ->
      exists_ (fst st) (snd st) "costs" (IInt i) INone = true ->
      shows st "costs" (IInt i) INone (VCosts l) -> table l m rows -> column_means m rows row ->
      curve_row st i ((IZR i + 1 / 2) * IZR (s_n (snd st)) :: row)
  | row_from_each vs m rows row :
      exists_ (fst st) (snd st) "cost" (IInt 0) (IStr "eval") = false ->
      exists_ (fst st) (snd st) "costs" (IInt i) INone = false ->
      length vs = Z.to_nat (s_n (snd st)) ->
      (forall j v, nth_error vs j = Some v -> shows st "costs" (IInt i) (IInt (Z.of_nat j)) v) ->
      ((m = 1%nat /\ Forall2 (fun v r => (v = VFloat (nth 0 r 0) \/ v = VArr0 (nth 0 r 0)) /\ length r = 1%nat) vs rows) \/
       (vs = map VArr1 rows /\ Forall (fun r => length r = m) rows)) ->
      column_means m rows row ->
      curve_row st i ((IZR i + 1 / 2) * IZR (s_n (snd st)) :: row).

Definition labels_spec (st : state) (ls : list string) : Prop :=
  let ex name := exists_ (fst st) (snd st) name INone INone in
  (ex "cost_function" = true /\ shows st "cost_function" INone INone (VObj ls)) \/
  (ex "cost_function" = false /\ ex "task" = true /\ shows st "task" INone INone (VObj ls)) \/
  (ex "cost_function" = false /\ ex "task" = false /\ ls = []).

(** ** the records of a closed-loop run *)
Record rec := Rec { r_sample : val; r_cost : val; r_dist : val; r_samples : val; r_costs : val;
                    r_weights : val; r_new : option val }.
Definition calls_of (i : nat) (r : rec) : list (call val) :=
  [CEval (Z.of_nat i) (r_sample r) (r_cost r);
   CUpdate (Z.of_nat i) (r_dist r) (r_samples r) (r_costs r) (r_weights r) (r_new r)].
Fixpoint closed_loop (i : nat) (rs : list rec) : list (call val) :=
  match rs with [] => [] | r :: rs' => calls_of i r ++ closed_loop (S i) rs' end.

