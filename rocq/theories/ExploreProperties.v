(** C103: exploration around a DMP reaches the robot. *)
From Coq Require Import String.
From Verif Require Import Base BaseLemmas SessionModel DynModel DynSpec ParamModel ParamSpec ParamProofs FaModel TrajModel DmpModel DmpSpec CppModel CppSpec CppProofs2 CppProofs5 CppProofs7 CppProofs8 CppExamples
  ThrowModel ThrowSpec ThrowProofs4 ThrowExamples ExploreSpec ExploreModel ExploreProofs ExploreProofs2 ExploreProofs3.
Open Scope string_scope.
Open Scope R_scope.

(** every parameter vector of the right length can be set on a DMP that C++ can read, and the result is
    executed alike by both programs *)
Theorem C103_vector : forall ex kinds m v0 v, wf (py_predict ex kinds) m -> portable kinds m -> uniform m -> 0 < m_tau m ->
  selectable_dmp (pdmp_of m) -> explorable m -> m_get_params m = Ok v0 -> length v = length v0 ->
  exists m' c, m_set_params m v = (m', Ok tt) /\ m_get_params m' = Ok v /\ transfer kinds m' = Ok c /\
    forall qs, Forall (proper (m_dim m)) qs ->
      run (cpp_call ex) c qs = run (py_call ex kinds) m' qs /\ length (run (cpp_call ex) c qs) = length qs /\
      Forall (fun r => exists a, r = Ok a) (run (cpp_call ex) c qs).
Proof.
  intros ex kinds m v0 v W P U Ht S E G0 Lv.
  destruct (explore_good ex kinds (m_dim m) m v (conj W (conj P (conj U (conj Ht eq_refl)))) S E) as (m' & Em & Gm & G & _).
  { rewrite Lv. now apply get_size. }
  exists m', (img kinds m'). split; [exact Em|]. split; [exact Gm|]. split; [apply transfer_ok, G|]. intros qs Hq.
  destruct (run_same ex kinds (m_dim m) qs m' G Hq) as (A & B & C). rewrite A. now repeat split.
Qed.
Print Assumptions C103_vector.
(** a trained DMP of which the weights and the goal are selected *)
Example C103_vector_case : exists m v0, wf (py_predict exp ex_kinds) m /\ portable ex_kinds m /\ uniform m /\ 0 < m_tau m /\ m_dim m = 1%nat /\
  selectable_dmp (pdmp_of m) /\ explorable m /\ m_get_params m = Ok v0 /\ m_sel m = ["goal"].
Proof.
  destruct ex_trained_good as (m & E & G).
  destruct (select_good exp ex_kinds 1 m (NList ["weights"; "goal"]) G) as ((W & P & U & Ht & D) & S & X).
  - intros fs i f. eapply from_traj_extras; [exact E|repeat constructor].
  - repeat constructor; cbn; intuition discriminate.
  - intros i x Hi [<-|[<-|[]]]; [right|now left]. assert (i = 0%nat) as -> by lia. now left.
  - destruct (get_ok _ S) as (v0 & E0). exists (m_select m (NList ["weights"; "goal"])), v0. do 5 (split; [assumption|]). do 3 (split; [assumption|]). reflexivity.
Qed.

(** the files of a whole exploration: one for each sample, with a name of its own, and each with the
    movement of its sample, although all are written from the same DMP *)
Theorem C103_samples : forall ex kinds m v0 samples, wf (py_predict ex kinds) m -> portable kinds m -> uniform m -> 0 < m_tau m ->
  selectable_dmp (pdmp_of m) -> explorable m -> m_get_params m = Ok v0 -> Forall (fun v => length v = length v0) samples ->
  exists files, tune kinds m 0 samples = Ok files /\ length files = length samples /\
    forall i, (i < length samples)%nat -> exists m' j c, m_set_params m (nth i samples []) = (m', Ok tt) /\ m_get_params m' = Ok (nth i samples []) /\
      lookup files (sample_name i) = Some j /\ load_dmp j = Ok c /\
      forall qs, Forall (proper (m_dim m)) qs ->
        run (cpp_call ex) c qs = run (py_call ex kinds) m' qs /\ Forall (fun r => exists a, r = Ok a) (run (cpp_call ex) c qs).
Proof.
  intros ex kinds m v0 samples W P U Ht S E G0 Hs.
  destruct (samples_ok ex kinds (m_dim m) m samples v0 (conj W (conj P (conj U (conj Ht eq_refl)))) S E G0 Hs) as (files & Et & L & F).
  exists files. split; [exact Et|]. split; [exact L|]. intros i Hi. destruct (F i Hi) as (m' & j & c & Em & Gm & Ej & Ec & -> & G).
  exists m', j, (img kinds m'). do 4 (split; [assumption|]). intros qs Hq.
  destruct (run_same ex kinds (m_dim m) qs m' G Hq) as (A & B & C). rewrite A. now split.
Qed.
Print Assumptions C103_samples.
(** names of files *)
Example C103_samples_case : sample_name 7 = "07_dmp_for_cpp.json" /\ sample_name 123 = "123_dmp_for_cpp.json".
Proof. split; reflexivity. Qed.

(** from the demonstration: what step 1 makes can be explored in step 3 with any samples *)
Theorem C103_demonstration : forall kinds ns h lam t fas samples, (forall i, kinds i = KRbfn) -> (forall i, (0 < ns i)%nat) -> (forall i, 0 < h i < 1) -> (forall i, 0 < lam i) ->
  demo (tj_dim t) t -> 0 < last (tj_ts t) 0 -> hd 0 (tj_ts t) < last (tj_ts t) 0 ->
  (tj_dim t <= length fas)%nat -> Forall (fun f => is_trained f = false) fas ->
  exists m v0, step1 (py_predict exp kinds) (trainer kinds ns h lam) t fas = Ok m /\ m_get_params m = Ok v0 /\
    (Forall (fun v => length v = length v0) samples ->
     exists files, tune kinds m 0 samples = Ok files /\ length files = length samples /\
     forall i, (i < length samples)%nat -> exists m' j c, m_set_params m (nth i samples []) = (m', Ok tt) /\ m_get_params m' = Ok (nth i samples []) /\
       lookup files (sample_name i) = Some j /\ load_dmp j = Ok c /\
       forall qs, Forall (proper (tj_dim t)) qs ->
         run (cpp_call exp) c qs = run (py_call exp kinds) m' qs /\ Forall (fun r => exists a, r = Ok a) (run (cpp_call exp) c qs)).
Proof.
  intros kinds ns h lam t fas samples Hk Hn Hh Hl D L1 L2 Lf Hu.
  destruct (step1_ok kinds ns h lam t fas Hk Hn Hh Hl D L1 L2 Lf Hu) as (m & E & G & S & X). destruct (get_ok _ S) as (v0 & E0).
  exists m, v0. split; [exact E|]. split; [exact E0|]. intros Hs. pose proof G as (W & P & U & Ht & Dm).
  destruct (C103_samples exp kinds m v0 samples W P U Ht S X E0 Hs) as (files & F). exists files. now rewrite <- Dm.
Qed.
Print Assumptions C103_demonstration.
Example C103_demonstration_case : demo (tj_dim ex_throw) ex_throw /\ 0 < last (tj_ts ex_throw) 0 /\ hd 0 (tj_ts ex_throw) < last (tj_ts ex_throw) 0.
Proof. split; [apply ex_throw_demo|]. split; cbn; lra. Qed.

(** throwing balls: every sample is thrown alike. Missing: as in C101_same_partial, the release in
    floating point. *)
Theorem C103_throws_partial : forall kinds ns h lam t fas samples, (forall i, kinds i = KRbfn) -> (forall i, (0 < ns i)%nat) -> (forall i, 0 < h i < 1) -> (forall i, 0 < lam i) ->
  demo 2 t -> 0 < last (tj_ts t) 0 -> hd 0 (tj_ts t) < last (tj_ts t) 0 ->
  (2 <= length fas)%nat -> Forall (fun f => is_trained f = false) fas ->
  exists m v0, step1 (py_predict exp kinds) (trainer kinds ns h lam) t fas = Ok m /\ m_get_params m = Ok v0 /\
    (Forall (fun v => length v = length v0) samples ->
     exists files, tune kinds m 0 samples = Ok files /\
     forall i, (i < length samples)%nat -> exists m' j c rows rows', m_set_params m (nth i samples []) = (m', Ok tt) /\
       lookup files (sample_name i) = Some j /\ load_dmp j = Ok c /\
       run_python_simulation (py_predict exp kinds) (-0.3) m' = Ok rows /\ robot_execute_dmp exp c = Ok rows' /\
       (length rows' <= length rows <= S (length rows'))%nat /\
       forall k, (k < length rows')%nat -> cols 1 4 (nth k rows' []) = cols 1 4 (nth k rows []) /\ cols 7 2 (nth k rows' []) = cols 7 2 (nth k rows [])).
Proof.
  intros kinds ns h lam t fas samples Hk Hn Hh Hl D L1 L2 Lf Hu. pose proof D as (Ed & _).
  destruct (step1_ok kinds ns h lam t fas Hk Hn Hh Hl) as (m & E & G & S & X); trivial; [now rewrite Ed..|]. destruct (get_ok _ S) as (v0 & E0).
  exists m, v0. split; [exact E|]. split; [exact E0|]. intros Hs.
  destruct (samples_ok exp kinds (tj_dim t) m samples v0 G S X E0 Hs) as (files & Et & L & F). exists files. split; [exact Et|].
  intros i Hi. destruct (F i Hi) as (m' & j & c & Em & Gm & Ej & Ec & -> & G'). rewrite Ed in G'.
  destruct (agree exp kinds m' G') as (rows & rows' & E1 & E2 & HL & HR). exists m', j, (img kinds m'), rows, rows'.
  do 6 (split; [assumption|]). intros k Hk'. destruct (HR k Hk') as (A & B & _). now split.
Qed.
Print Assumptions C103_throws_partial.
Example C103_throws_partial_case : demo 2 ex_throw /\ (2 <= length [new_fa []; new_fa []])%nat /\ Forall (fun f => is_trained f = false) [new_fa []; new_fa []].
Proof. split; [apply ex_throw_demo|]. split; [cbn; lia|repeat constructor]. Qed.

(** the widths of basis functions cannot be explored safely: a sample with a width of zero makes
    predictions fail that were defined before *)
Theorem C103_widths_refuted : exists f v f', fa_portable KRbfn f /\ selectable f /\ f_sel f = Some ["widths"] /\
  (forall ex ph, exists y, py_predict ex (fun _ => KRbfn) 0 (f_model f) ph = Ok y) /\
  fa_set f v = (f', Ok tt) /\ fa_get f' = Ok v /\ forall ex, py_predict ex (fun _ => KRbfn) 0 (f_model f') 0 = Err NonFinite.
Proof.
  set (f := fa_select ex_rbf (NStr "widths")). exists f, [0]. destruct (fa_set f [0]) as [f' r] eqn:E. exists f'.
  assert (E' : fa_set f [0] = (Fa [("centers", PArr (Arr [1; 1]%nat [0])); ("widths", PArr (Arr [1; 1]%nat [0])); ("weights", PArr (Arr [1; 1]%nat [0.5]))] (Some 1%nat) (Some ["widths"]), Ok tt)) by reflexivity.
  rewrite E in E'. injection E' as -> ->.
  assert (P : fa_portable KRbfn f) by exact ex_rbf_portable.
  split; [exact P|]. split.
  { split; [reflexivity|]. exists ["widths"]. split; [reflexivity|]. split; [repeat constructor; intros []|]. constructor; [|constructor]. eexists. split; [reflexivity|]. split; [discriminate|reflexivity]. }
  split; [reflexivity|]. split.
  { intros ex ph. apply (rbfn_defined ex (fun _ => KRbfn) 0 (f_model f) 1 [0] [1]); try reflexivity; [lia|eexists; split; reflexivity|].
    exists [1 * ex (- 0.5 * (ph - 0)^2 / (1 * 1))]. cbn. unfold CppProofs.one_act, FaModel.factor. cbn [nth]. destruct (Req_EM_T 1 0); [lra|]. reflexivity. }
  split; [reflexivity|]. split; [reflexivity|]. intros ex. cbn [f_model].
  unfold py_predict, rbfn_predict. rewrite (CppProofs.py_acts ex false _ 1 [0] [0]) by (trivial; lia). cbn [andb seq mapM].
  unfold CppProofs.one_act, FaModel.factor. cbn [nth]. destruct (Req_EM_T 0 0) as [_|?]; [reflexivity|lra].
Qed.
Print Assumptions C103_widths_refuted.
