(** Concrete sessions: witnesses for the properties, and bridging lemmas. *)
From Coq Require Import String Ascii NArith.
From Verif Require Import Base BaseLemmas SessionModel SessionSpec SessionStrings SessionProofs SessionProofs2 SessionProofs3
  UpdatersModel CurveModel CurveSpec CurveProofs.
Open Scope string_scope.

Definition ex_world : world val := World [] empty_disk [].
Definition ex_to_int (v : val) : option Z :=
  match v with VInt z => Some z | VArr0 _ => Some 5%Z | _ => None end.

(** the first address the caller creates is 1: address 0 holds the number of samples *)
Definition ex_ops : list (op val) :=
  [ONew (VFloat 1); OTell 1 "x" (IInt 3) INone; OMutate 1 (VFloat 2); OAsk "x" (IInt 3) INone; OMutate 3 (VFloat 9)].

Lemma base_name_injective n n' u u' s s' :
  natural_index u -> natural_index u' -> natural_index s -> natural_index s' ->
  ~ starts_with_digit n -> ~ starts_with_digit n' ->
  get_base_name n u s = get_base_name n' u' s' -> n = n' /\ u = u' /\ s = s'.
Proof.
  intros H1 H2 H3 H4 H5 H6. apply base_name_inj; auto.
  - destruct n as [|c n]; [exact I|]. cbn in *. destruct (is_digit c); [contradiction H5; reflexivity|reflexivity].
  - destruct n' as [|c n']; [exact I|]. cbn in *. destruct (is_digit c); [contradiction H6; reflexivity|reflexivity].
Qed.
Lemma base_name_collisions n n' u u' s s' :
  natural_index u -> natural_index u' -> natural_index s -> natural_index s' ->
  (get_base_name n u s = get_base_name n' u' s' <->
   u = u' /\
   ((s = s' /\ n = n') \/
    (s = INone /\ exists z, s' = IInt z /\ n = fmt 3 z ++ "_" ++ n') \/
    (s' = INone /\ exists z, s = IInt z /\ n' = fmt 3 z ++ "_" ++ n))).
Proof. intros. rewrite base_name_cases by assumption. rewrite sample_name_cases by assumption. reflexivity. Qed.
Lemma base_name_collide :
  get_base_name "000_foo" (IInt 7) INone = get_base_name "foo" (IInt 7) (IInt 0) /\
  (forall name z z' is, get_base_name name (INp z) is = get_base_name name (INp z') is).
Proof. split; reflexivity. Qed.

Lemma exists_without_ask : exists (w0 : world val) n,
  let ws := new_session vcategory VInt w0 n REmpty [] in
  exists_ (fst ws) (snd ws) "x" INone INone = true /\
  ask vload (fst ws) (snd ws) "x" INone INone = (fst ws, snd ws, Err KeyError).
Proof. exists (World [] (Disk [("x", Json, VFloat 3)] []) []), 5%Z. split; reflexivity. Qed.

Lemma reopen_stale : exists (ops : list (op val)) w' s',
  Forall plain_op ops /\
  let ws0 := new_session vcategory VInt ex_world 5 RDir [] in
  let ws := run vcategory vload ws0 ops in
  latest (KStr "x") (told vcategory vload ws0 ops) = Some (VArr1 [1%R; 2%R]) /\
  from_dir vcategory vload VInt ex_to_int (fst ws) = Ok (w', s') /\
  returns (ask vload w' s' "x" INone INone) (VFloat 3).
Proof.
  exists [ONew (VFloat 3); OTell 1 "x" INone INone; OMutate 1 (VArr1 [1%R; 2%R]); OTell 1 "x" INone INone].
  eexists _, _. split; [repeat constructor; discriminate|]. split; [reflexivity|]. split; [reflexivity|].
  eexists _, _, _. split; reflexivity.
Qed.

(** a directory with an object x, opened by a new session *)
Definition ex_opened : state :=
  new_session vcategory VInt (World [] (Disk [("x", Json, VFloat 3)] []) []) 5 RDir [].
Lemma ask_shares : exists (w : world val) s w1 s1 a v,
  ask vload w s "x" INone INone = (w1, s1, Ok a) /\ nth_error (w_heap w1) a = Some (VFloat 3) /\
  v <> VFloat 3 /\
  let ws := run vcategory vload (w1, s1) [OMutate a v] in
  returns (ask vload (fst ws) (snd ws) "x" INone INone) v.
Proof.
  exists (fst ex_opened), (snd ex_opened). eexists _, _, _, (VInt 0). split; [reflexivity|]. split; [reflexivity|].
  split; [discriminate|]. eexists _, _, _. split; reflexivity.
Qed.

Lemma add_eval_found V category load (w : world V) s i sample cost :
  let ws := add_eval category w s i sample cost in
  returns (ask load (fst ws) (snd ws) "cost" (IInt i) (IStr "eval")) cost /\
  returns (ask load (fst ws) (snd ws) "sample" (IInt i) (IStr "eval")) sample /\
  exists_ (fst ws) (snd ws) "cost" (IInt i) (IStr "eval") = true.
Proof.
  intros ws. destruct (add_eval_avail V category load w s i sample cost) as (H1 & H2 & H3).
  split; [now apply avail_returns|]. split; [|exact H3]. apply avail_returns. exact H2.
Qed.

Lemma tell_exists_mono V category (w : world V) s v nm u i name iu is :
  exists_ w s name iu is = true ->
  let ws := tell category w s v nm u i in exists_ (fst ws) (snd ws) name iu is = true.
Proof.
  unfold exists_, tell. cbn [fst snd s_cache s_root w_disk]. rewrite cache_get_set.
  destruct (key_eqb (get_base_name name iu is) (get_base_name nm u i)); [reflexivity|].
  destruct (cache_get _ _); [auto|]. destruct (s_root s); cbn [not_none]; [auto| |].
  all: cbn [save d_files find_file]; intros H.
  all: destruct (String.eqb (path (get_base_name name iu is)) (path (get_base_name nm u i))); cbn [andb]; [|exact H].
  all: destruct (category v); cbn [ext_eqb orb]; rewrite ?orb_true_r; reflexivity.
Qed.

Lemma add_eval_costs w s i sample cost :
  let st := add_eval vcategory w s i sample cost in
  i = 0%Z \/ exists_ w s "cost" (IInt 0) (IStr "eval") = true ->
  snd (get_eval_costs st i) = Ok (cost, IZR i * IZR (s_n s))%R.
Proof.
  intros st H. destruct (add_eval_found val vcategory vload w s i sample cost) as (H1 & _ & H3). fold st in H1, H3.
  replace (s_n s) with (s_n (snd st)) by reflexivity.
  apply eval_costs_eval; [|exact H1]. destruct H as [->|H]; [exact H3|].
  unfold st, add_eval.
  pose proof (tell_exists_mono val vcategory w s cost "eval_cost" (IInt i) INone _ _ _ H) as T. cbv zeta in T.
  destruct (tell vcategory w s cost "eval_cost" (IInt i) INone) as [w1 s1].
  exact (tell_exists_mono val vcategory w1 s1 sample "eval_sample" (IInt i) INone _ _ _ T).
Qed.
Definition ex_evaluated : state :=
  let st := new_session vcategory VInt ex_world 5 RDir [] in
  add_eval vcategory (fst st) (snd st) 0 (VArr1 [1%R]) (VFloat 2).

Lemma n_updates_lexicographic :
  let ws := do_calls vcategory (new_session vcategory VInt ex_world 5 RDir [])
              [CEval 99999 (VFloat 1) (VFloat 1); CEval 100000 (VFloat 1) (VFloat 1)] in
  get_n_updates (fst ws) (snd ws) = Ok (Some 99999%Z).
Proof. reflexivity. Qed.

Definition ex_rec (l : list R) : rec :=
  Rec (VArr1 [0%R]) (VArr1 l) (VOther 1) (VArr2 [[0%R]; [1%R]]) (VCosts [CScalar 1%R; CScalar 2%R]) (VArr1 [1%R; 0%R]) (Some (VOther 2)).
Definition ex_recs : list rec := [ex_rec [4%R; 3%R; 1%R]; ex_rec [2%R; 2%R; 0%R]; ex_rec [1%R; 1%R; 0%R]].
Definition ex_calls : list (call val) := closed_loop 0 ex_recs.
Lemma ex_curve :
  let st := do_calls vcategory (new_session vcategory VInt ex_world 5 RDir []) (closed_loop 0 ex_recs) in
  Forall2 (fun rc row => components (r_cost rc) row) ex_recs [[4%R; 3%R; 1%R]; [2%R; 2%R; 0%R]; [1%R; 1%R; 0%R]] /\
  labels_spec st [] /\
  snd (get_learning_curve st) = Ok ([[(INR 0 * 5)%R; 4%R; 3%R; 1%R]; [(INR 1 * 5)%R; 2%R; 2%R; 0%R]], []).
Proof.
  intros st. assert (F : Forall2 (fun rc row => components (r_cost rc) row) ex_recs [[4%R; 3%R; 1%R]; [2%R; 2%R; 0%R]; [1%R; 1%R; 0%R]]).
  { repeat constructor. }
  assert (L : labels_spec st []) by (right; right; repeat split; reflexivity).
  split; [exact F|]. split; [exact L|]. unfold st.
  rewrite (closed_loop_curve_spec ex_world 5 RDir [] ex_recs _ [] ltac:(discriminate) ltac:(discriminate)
    ltac:(intros _; split; [reflexivity|cbn; lia]) F L). reflexivity.
Qed.
Lemma cost_ratio_vec st n l0 l1 a b r0 r1 :
  exists_ (fst st) (snd st) "cost" (IInt 0) (IStr "eval") = true ->
  get_n_updates (fst st) (snd st) = Ok (Some n) ->
  shows st "cost" (IInt 0) (IStr "eval") (VArr1 l0) ->
  shows st "cost" (IInt (n - 1)) (IStr "eval") (VArr1 l1) ->
  l0 = b :: r0 -> l1 = a :: r1 -> b <> 0%R ->
  snd (get_cost_ratio st) = Ok (a / b)%R.
Proof. intros H1 H2 H3 H4 -> -> Hb. eapply cost_ratio_ok; eauto; reflexivity. Qed.

Definition ex_in_memory : state := run vcategory vload (new_session vcategory VInt ex_world 5 RNone []) ex_ops.
