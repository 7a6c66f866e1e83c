(** Properties C17-C25: learning sessions. V is the type of stored objects, [category] the file type
    chosen for an object, [load e v] what reading back a file of type e containing v returns. *)
From Coq Require Import String Ascii NArith.
From Verif Require Import Base SessionModel SessionSpec SessionStrings SessionProofs SessionProofs2 SessionProofs3
  UpdatersModel CurveModel CurveSpec CurveProofs SessionExamples.
Open Scope string_scope.

(** ** C17 *)
Theorem C17_ask_returns_last_told : forall V category load of_int (w0 : world V) n r kwargs ops name iu is v,
  wf_world w0 ->
  let ws0 := new_session category of_int w0 n r kwargs in
  let ws := run category load ws0 ops in
  latest (get_base_name name iu is) (told_new of_int n kwargs ++ told category load ws0 ops) = Some v ->
  returns_fresh (fst ws) (ask load (fst ws) (snd ws) name iu is) v.
Proof. exact ask_latest. Qed.
Print Assumptions C17_ask_returns_last_told.

(** the same from any state of a session, e.g. one opened on an existing directory *)
Theorem C17_ask_returns_last_told_any_state : forall V category load (w : world V) s ops name iu is v,
  wf_world w ->
  let ws := run category load (w, s) ops in
  latest (get_base_name name iu is) (told category load (w, s) ops) = Some v ->
  returns_fresh (fst ws) (ask load (fst ws) (snd ws) name iu is) v.
Proof. exact ask_latest_any. Qed.
Print Assumptions C17_ask_returns_last_told_any_state.

(** and a session in memory knows nothing that was not told *)
Theorem C17_never_told : forall V category load of_int (w0 : world V) n kwargs ops name iu is,
  let ws0 := new_session category of_int w0 n RNone kwargs in
  let ws := run category load ws0 ops in
  latest (get_base_name name iu is) (told_new of_int n kwargs ++ told category load ws0 ops) = None ->
  ask load (fst ws) (snd ws) name iu is = (fst ws, snd ws, Err KeyError).
Proof. exact ask_never_told. Qed.
Print Assumptions C17_never_told.

(** a history with a tell, a modification of the told object, an ask, and a modification of the
    returned object; then the entry is still the one told *)
Example C17_case :
  latest (get_base_name "x" (IInt 3) INone)
    (told_new VInt 5 [] ++ told vcategory vload (new_session vcategory VInt ex_world 5 RDir []) ex_ops)
  = Some (VFloat 1) /\ wf_world ex_world /\ (length ex_ops = 5)%nat.
Proof. split; [reflexivity|]. split; [intros a []|reflexivity]. Qed.

(** ** C18 *)
Theorem C18_injective : forall n n' u u' s s',
  natural_index u -> natural_index u' -> natural_index s -> natural_index s' ->
  ~ starts_with_digit n -> ~ starts_with_digit n' ->
  get_base_name n u s = get_base_name n' u' s' -> n = n' /\ u = u' /\ s = s'.
Proof. exact base_name_injective. Qed.
Print Assumptions C18_injective.

(** exactly the collisions there are *)
Theorem C18_collisions : forall n n' u u' s s',
  natural_index u -> natural_index u' -> natural_index s -> natural_index s' ->
  (get_base_name n u s = get_base_name n' u' s' <->
   u = u' /\
   ((s = s' /\ n = n') \/
    (s = INone /\ exists z, s' = IInt z /\ n = fmt 3 z ++ "_" ++ n') \/
    (s' = INone /\ exists z, s = IInt z /\ n' = fmt 3 z ++ "_" ++ n))).
Proof. exact base_name_collisions. Qed.
Print Assumptions C18_collisions.

(** two different entries overwrite each other; update numbers of numpy type are ignored *)
Theorem C18_refuted :
  get_base_name "000_foo" (IInt 7) INone = get_base_name "foo" (IInt 7) (IInt 0) /\
  (forall name z z' is, get_base_name name (INp z) is = get_base_name name (INp z') is).
Proof. exact base_name_collide. Qed.
Print Assumptions C18_refuted.
Example C18_case : natural_index (IInt 12) /\ natural_index INone /\ ~ starts_with_digit "cost_vars".
Proof. split; [right; eexists; split; [|reflexivity]; discriminate|]. split; [now left|discriminate]. Qed.

(** ** C19: a session whose directory is not the empty string, and everything it can go through *)
Theorem C19_exists_predicts_ask_partial : forall V category load of_int (w0 : world V) n r kwargs ops name iu is,
  r <> REmpty ->
  let ws := run category load (new_session category of_int w0 n r kwargs) ops in
  (exists_ (fst ws) (snd ws) name iu is = true <->
   exists w' s' a, ask load (fst ws) (snd ws) name iu is = (w', s', Ok a)).
Proof. exact exists_iff_ask. Qed.
Print Assumptions C19_exists_predicts_ask_partial.

(** with the directory "" exists() finds files in the working directory that ask() does not read *)
Theorem C19_refuted : exists (w0 : world val) n,
  let ws := new_session vcategory VInt w0 n REmpty [] in
  exists_ (fst ws) (snd ws) "x" INone INone = true /\
  ask vload (fst ws) (snd ws) "x" INone INone = (fst ws, snd ws, Err KeyError).
Proof. exact exists_without_ask. Qed.
Print Assumptions C19_refuted.
Example C19_case : RDir <> REmpty /\ RNone <> REmpty.
Proof. split; discriminate. Qed.

(** ** C20 *)
Theorem C20_reopened_session : forall V category load of_int to_int (w0 : world V) n kwargs ops w' s' asks name iu is v,
  d_files (w_disk w0) = [] ->
  Forall (fun nv => plain_string (fst nv)) kwargs -> Forall plain_op ops ->
  plain_string name -> plain_index is ->
  let ws0 := new_session category of_int w0 n RDir kwargs in
  let ws := run category load ws0 ops in
  let log := (told_new of_int n kwargs ++ told category load ws0 ops)%list in
  let k := get_base_name name iu is in
  k <> KStr "n_samples_per_update" -> latest k log = Some v ->
  (forall v', In (k, v') log -> category v' = category v) ->
  from_dir category load of_int to_int (fst ws) = Ok (w', s') -> only_asks asks ->
  let ws' := run category load (w', s') asks in
  returns (ask load (fst ws') (snd ws') name iu is) (load (category v) v).
Proof. exact reopen. Qed.
Print Assumptions C20_reopened_session.

(** reopening succeeds and finds the number of samples per update *)
Theorem C20_reopening_succeeds : forall V category load of_int to_int (w0 : world V) n kwargs ops,
  d_files (w_disk w0) = [] ->
  (forall m, category (of_int m) = Txt) -> (forall m, to_int (load Txt (of_int m)) = Some m) ->
  Forall (fun nv => plain_string (fst nv) /\ fst nv <> "n_samples_per_update") kwargs ->
  Forall plain_op ops -> Forall (fun o => ~ tells_key (KStr "n_samples_per_update") o) ops ->
  let ws := run category load (new_session category of_int w0 n RDir kwargs) ops in
  exists w' s', from_dir category load of_int to_int (fst ws) = Ok (w', s') /\ s_n s' = n.
Proof. exact reopen_ok. Qed.
Print Assumptions C20_reopening_succeeds.

(** without the proviso on file types: an object told first as JSON shadows the array told later *)
Theorem C20_refuted : exists (ops : list (op val)) w' s',
  Forall plain_op ops /\
  let ws0 := new_session vcategory VInt ex_world 5 RDir [] in
  let ws := run vcategory vload ws0 ops in
  latest (KStr "x") (told vcategory vload ws0 ops) = Some (VArr1 [1%R; 2%R]) /\
  from_dir vcategory vload VInt ex_to_int (fst ws) = Ok (w', s') /\
  returns (ask vload w' s' "x" INone INone) (VFloat 3).
Proof. exact reopen_stale. Qed.
Print Assumptions C20_refuted.
Example C20_case :
  d_files (w_disk ex_world) = [] /\ Forall plain_op ex_ops /\ plain_string "x" /\
  (exists ws', from_dir vcategory vload VInt ex_to_int
     (fst (run vcategory vload (new_session vcategory VInt ex_world 5 RDir []) ex_ops)) = Ok ws').
Proof.
  split; [reflexivity|]. split; [repeat constructor; discriminate|]. split; [split; [discriminate|exact I]|].
  eexists. reflexivity.
Qed.

(** ** C21 *)
Theorem C21_refuted : exists (w : world val) s w1 s1 a v,
  ask vload w s "x" INone INone = (w1, s1, Ok a) /\ nth_error (w_heap w1) a = Some (VFloat 3) /\
  v <> VFloat 3 /\
  let ws := run vcategory vload (w1, s1) [OMutate a v] in
  returns (ask vload (fst ws) (snd ws) "x" INone INone) v.
Proof. exact ask_shares. Qed.
Print Assumptions C21_refuted.

(** For an entry told in this session modifications never matter (C17). For an entry read from the
    directory, they do not matter as long as the object returned by the first ask is not modified;
    the objects returned by later asks can be modified freely. *)
Theorem C21_first_ask_partial : forall V category load (w : world V) s name iu is w1 s1 a v ops,
  ask load w s name iu is = (w1, s1, Ok a) -> nth_error (w_heap w1) a = Some v ->
  cache_get (s_cache s) (get_base_name name iu is) = None ->
  Forall (fun o => ~ tells_key (get_base_name name iu is) o /\ ~ mutates a o) ops ->
  let ws := run category load (w1, s1) ops in
  returns_fresh (fst ws) (ask load (fst ws) (snd ws) name iu is) v.
Proof. exact ask_first_stable. Qed.
Print Assumptions C21_first_ask_partial.
Theorem C21_later_asks_partial : forall V category load (w : world V) s name iu is w1 s1 a v b ops,
  cache_get (s_cache s) (get_base_name name iu is) = Some b ->
  ask load w s name iu is = (w1, s1, Ok a) -> nth_error (w_heap w1) a = Some v ->
  Forall (fun o => ~ tells_key (get_base_name name iu is) o /\ ~ mutates b o) ops ->
  let ws := run category load (w1, s1) ops in
  a <> b /\ returns_fresh (fst ws) (ask load (fst ws) (snd ws) name iu is) v.
Proof. exact ask_again_stable. Qed.
Print Assumptions C21_later_asks_partial.
Example C21_case : exists w1 s1 a,
  ask vload (fst ex_opened) (snd ex_opened) "x" INone INone = (w1, s1, Ok a) /\
  cache_get (s_cache (snd ex_opened)) (get_base_name "x" INone INone) = None.
Proof. eexists _, _, _. split; reflexivity. Qed.

(** ** C22 *)
Theorem C22_eval_is_found : forall V category load (w : world V) s i sample cost,
  let ws := add_eval category w s i sample cost in
  returns (ask load (fst ws) (snd ws) "cost" (IInt i) (IStr "eval")) cost /\
  returns (ask load (fst ws) (snd ws) "sample" (IInt i) (IStr "eval")) sample /\
  exists_ (fst ws) (snd ws) "cost" (IInt i) (IStr "eval") = true.
Proof. exact add_eval_found. Qed.
Print Assumptions C22_eval_is_found.
Theorem C22_eval_costs : forall w s i sample cost,
  let st := add_eval vcategory w s i sample cost in
  i = 0%Z \/ exists_ w s "cost" (IInt 0) (IStr "eval") = true ->
  snd (get_eval_costs st i) = Ok (cost, IZR i * IZR (s_n s))%R.
Proof. exact add_eval_costs. Qed.
Print Assumptions C22_eval_costs.
Example C22_case :
  exists_ (fst ex_evaluated) (snd ex_evaluated) "cost" (IInt 0) (IStr "eval") = true.
Proof. reflexivity. Qed.

(** ** C23 *)
(** a closed-loop run (add_eval and add_update for 0, 1, ..., k-1) leaves get_n_updates at k - 1 *)
Theorem C23_refuted : forall w0 n r kwargs rs,
  rs <> [] -> r <> REmpty -> (r = RDir -> d_dirs (w_disk w0) = [] /\ (Z.of_nat (length rs) <= 100000)%Z) ->
  let st := do_calls vcategory (new_session vcategory VInt w0 n r kwargs) (closed_loop 0 rs) in
  get_n_updates (fst st) (snd st) = Ok (Some (Z.of_nat (length rs) - 1)%Z).
Proof. exact closed_loop_n_updates. Qed.
Print Assumptions C23_refuted.
(** without directory: the number given to the last add_update *)
Theorem C23_in_memory_partial : forall V category of_int (w0 : world V) n kwargs cs,
  let ws := do_calls category (new_session category of_int w0 n RNone kwargs) cs in
  get_n_updates (fst ws) (snd ws) = Ok (last_update cs).
Proof. exact n_updates_mem. Qed.
Print Assumptions C23_in_memory_partial.
(** with a directory: the largest update number anything was stored for, below 100000 *)
Theorem C23_directory_partial : forall V category of_int (w0 : world V) n kwargs cs m,
  d_dirs (w_disk w0) = [] ->
  Forall small (updates_of cs) -> In m (updates_of cs) ->
  (forall j, In j (updates_of cs) -> (j <= m)%Z) ->
  let ws := do_calls category (new_session category of_int w0 n RDir kwargs) cs in
  get_n_updates (fst ws) (snd ws) = Ok (Some m).
Proof. exact (fun V c => n_updates_dir V c (fun _ v => v)). Qed.
Print Assumptions C23_directory_partial.
Theorem C23_nothing_stored : forall V category of_int (w0 : world V) n kwargs cs,
  d_dirs (w_disk w0) = [] -> updates_of cs = [] ->
  let ws := do_calls category (new_session category of_int w0 n RDir kwargs) cs in
  get_n_updates (fst ws) (snd ws) = Err IndexError.
Proof. exact (fun V c => n_updates_dir_none V c (fun _ v => v)). Qed.
Print Assumptions C23_nothing_stored.
(** directories are compared as strings: beyond 99999 the result no longer grows *)
Theorem C23_lexicographic_refuted :
  let ws := do_calls vcategory (new_session vcategory VInt ex_world 5 RDir [])
              [CEval 99999 (VFloat 1) (VFloat 1); CEval 100000 (VFloat 1) (VFloat 1)] in
  get_n_updates (fst ws) (snd ws) = Ok (Some 99999%Z).
Proof. exact n_updates_lexicographic. Qed.
Print Assumptions C23_lexicographic_refuted.
Example C23_case : Forall small (updates_of ex_calls) /\ In 2%Z (updates_of ex_calls) /\
  (forall j, In j (updates_of ex_calls) -> (j <= 2)%Z).
Proof.
  cbn. split; [repeat constructor; discriminate|]. split; [auto 10|]. intros j H.
  repeat (destruct H as [<-|H]; [discriminate|]). destruct H.
Qed.

(** ** C24 *)
Theorem C24_learning_curve : forall st n rows ls,
  get_n_updates (fst st) (snd st) = Ok (Some n) ->
  Forall2 (curve_row st) (zrange n) rows -> labels_spec st ls ->
  snd (get_learning_curve st) = Ok (rows, ls).
Proof. exact learning_curve_spec. Qed.
Print Assumptions C24_learning_curve.
(** after a closed-loop run of k updates: the rows of the first k - 1 of them *)
Theorem C24_closed_loop : forall w0 n r kwargs rs rows ls,
  rs <> [] -> r <> REmpty -> (r = RDir -> d_dirs (w_disk w0) = [] /\ (Z.of_nat (length rs) <= 100000)%Z) ->
  let st := do_calls vcategory (new_session vcategory VInt w0 n r kwargs) (closed_loop 0 rs) in
  Forall2 (fun rc row => components (r_cost rc) row) rs rows ->
  labels_spec st ls ->
  snd (get_learning_curve st) =
  Ok (map (fun j => (INR j * IZR n)%R :: nth j rows []) (seq 0 (length rs - 1)), ls).
Proof. exact closed_loop_curve_spec. Qed.
Print Assumptions C24_closed_loop.
Theorem C24_cost_ratio : forall st n l0 l1 a b r0 r1,
  exists_ (fst st) (snd st) "cost" (IInt 0) (IStr "eval") = true ->
  get_n_updates (fst st) (snd st) = Ok (Some n) ->
  shows st "cost" (IInt 0) (IStr "eval") (VArr1 l0) ->
  shows st "cost" (IInt (n - 1)) (IStr "eval") (VArr1 l1) ->
  l0 = b :: r0 -> l1 = a :: r1 -> b <> 0%R ->
  snd (get_cost_ratio st) = Ok (a / b)%R.
Proof. exact cost_ratio_vec. Qed.
Print Assumptions C24_cost_ratio.
Example C24_case :
  let st := do_calls vcategory (new_session vcategory VInt ex_world 5 RDir []) (closed_loop 0 ex_recs) in
  Forall2 (fun rc row => components (r_cost rc) row) ex_recs [[4%R; 3%R; 1%R]; [2%R; 2%R; 0%R]; [1%R; 1%R; 0%R]] /\
  labels_spec st [] /\
  snd (get_learning_curve st) = Ok ([[(INR 0 * 5)%R; 4%R; 3%R; 1%R]; [(INR 1 * 5)%R; 2%R; 2%R; 0%R]], []).
Proof. exact ex_curve. Qed.

(** ** C25 *)
Theorem C25_save_all : forall V category load of_int to_int (w0 : world V) n r kwargs ops heap ow w' s' asks name iu is v,
  wf_world w0 ->
  Forall (fun nv => plain_string (fst nv)) kwargs -> Forall plain_op ops ->
  plain_string name -> plain_index is ->
  let ws0 := new_session category of_int w0 n r kwargs in
  let ws := run category load ws0 ops in
  let log := (told_new of_int n kwargs ++ told category load ws0 ops)%list in
  let k := get_base_name name iu is in
  k <> KStr "n_samples_per_update" -> latest k log = Some v ->
  from_dir category load of_int to_int (World heap (save_all category (fst ws) (snd ws) empty_disk) ow) = Ok (w', s') ->
  only_asks asks ->
  let ws' := run category load (w', s') asks in
  returns (ask load (fst ws') (snd ws') name iu is) (load (category v) v).
Proof. exact save_all_reopen. Qed.
Print Assumptions C25_save_all.
Theorem C25_reopening_succeeds : forall V category load of_int to_int (w0 : world V) n r kwargs ops heap ow v m,
  wf_world w0 ->
  Forall (fun nv => plain_string (fst nv)) kwargs -> Forall plain_op ops ->
  let ws0 := new_session category of_int w0 n r kwargs in
  let ws := run category load ws0 ops in
  let log := (told_new of_int n kwargs ++ told category load ws0 ops)%list in
  latest (KStr "n_samples_per_update") log = Some v -> category v = Txt -> to_int (load Txt v) = Some m ->
  exists w' s', from_dir category load of_int to_int
      (World heap (save_all category (fst ws) (snd ws) empty_disk) ow) = Ok (w', s') /\ s_n s' = m.
Proof. exact save_all_reopen_ok. Qed.
Print Assumptions C25_reopening_succeeds.
Example C25_case : exists w' s',
  from_dir vcategory vload VInt ex_to_int
    (World [] (save_all vcategory (fst ex_in_memory) (snd ex_in_memory) empty_disk) []) = Ok (w', s') /\
  Forall plain_op ex_ops.
Proof. eexists _, _. split; [reflexivity|]. repeat constructor; discriminate. Qed.
