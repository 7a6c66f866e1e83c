From Coq Require Import String Ascii NArith.
From Verif Require Import Base BaseLemmas SessionModel SessionSpec SessionStrings SessionProofs SessionProofs2 SessionProofs3 SessionProofs4
  UpdatersModel LoopModel LoopSpec.
Open Scope string_scope.

Lemma digits_plain s : digits s -> plain_string s.
Proof.
  induction s as [|c s IH]; [intros; exact I|]. cbn. intros [H1 H2]. split; [|auto]. intros ->. discriminate.
Qed.
Lemma plain_append a b : plain_string a -> plain_string b -> plain_string (a ++ b).
Proof. induction a; cbn; [auto|]. intros [H1 H2] Hb. split; [exact H1|]. cbn in *. auto. Qed.
Lemma label_plain nm j : plain_string nm -> plain_string (sample_name nm (IInt (Z.of_nat j))).
Proof.
  intros H. cbn [sample_name]. apply plain_append; [apply digits_plain, fmt_digits; lia|].
  apply plain_append; [|exact H]. cbn. split; [discriminate|exact I].
Qed.

Section P.
Variables CV P S : Type.
Notation oval := (oval CV P).
Variable category : oval -> ext.
Variable load : ext -> oval -> oval.
Variable orc : oracles CV S.
Notation st := (st CV P S).
Notation m_eval := (m_eval CV P S orc).
Notation m_gen := (m_gen CV P S orc).
Notation m_upd := (m_upd CV P S orc).
Notation m_roll := (m_roll CV P S orc).
Notation m_evalr := (m_evalr CV P S orc).
Notation do_calls := (do_calls category).

Lemma call_out_inv A (f : S -> S * res A) ev (s s' : st) r : call_out CV P S f ev s = (s', r) ->
  st_db s' = st_db s /\
  match r with Ok a => st_trace s' = (st_trace s ++ [ev a])%list | Err _ => st_trace s' = st_trace s end /\
  f (st_out s) = (st_out s', r).
Proof.
  unfold call_out. destruct (f (st_out s)) as [o [a|e]]; intros H; injection H as <- <-; repeat split; reflexivity.
Qed.

Lemma bind_inv A B (m : M CV P S A) (k : A -> M CV P S B) s s' r : bindM CV P S m k s = (s', r) ->
  exists s1 r1, m s = (s1, r1) /\ match r1 with Ok a => k a s1 = (s', r) | Err e => s' = s1 /\ r = Err e end.
Proof.
  unfold bindM. destruct (m s) as [s1 [a|e]]; intros H.
  - exists s1, (Ok a). auto.
  - exists s1, (Err e). injection H as <- <-. auto.
Qed.

Lemma do_calls_app ws cs cs' : do_calls ws (cs ++ cs') = do_calls (do_calls ws cs) cs'.
Proof. unfold SessionSpec.do_calls. apply fold_left_app. Qed.

(** ** run_optimization *)
Lemma eval_all_inv xs : forall (s s' : st) r, mapMM CV P S m_eval xs s = (s', r) ->
  st_db s' = st_db s /\ exists cs, st_trace s' = (st_trace s ++ map2 EEval xs cs)%list /\
    (length cs <= length xs)%nat /\
    match r with Ok cs' => cs' = cs /\ length cs = length xs | Err _ => True end.
Proof.
  induction xs as [|x xs IH]; intros s s' r H; cbn [mapMM] in H.
  - injection H as <- <-. split; [reflexivity|]. exists []. cbn. rewrite app_nil_r. auto.
  - apply bind_inv in H. destruct H as (s1 & r1 & E1 & H). unfold LoopModel.m_eval, LoopModel.m_gen, LoopModel.m_upd, LoopModel.m_roll, LoopModel.m_evalr in E1; apply call_out_inv in E1. destruct E1 as (D1 & T1 & O1).
    destruct r1 as [c|e].
    + apply bind_inv in H. destruct H as (s2 & r2 & E2 & H). apply IH in E2. destruct E2 as (D2 & cs & T2 & L2 & K2).
      destruct r2 as [cs'|e].
      * injection H as <- <-. destruct K2 as [-> K2]. split; [congruence|]. exists (c :: cs).
        rewrite T2, T1, <- app_assoc. cbn. repeat split; lia.
      * destruct H as [-> ->]. split; [congruence|]. exists (c :: cs). rewrite T2, T1, <- app_assoc. cbn. repeat split; lia.
    + destruct H as [-> ->]. split; [exact D1|]. exists []. cbn. rewrite app_nil_r. repeat split; auto. lia.
Qed.

Definition opt_calls (i : nat) (u : upd_rec) : list (call oval) :=
  [CEval (Z.of_nat i) (OVec (d_mean (u_dist u))) (OCost (u_mean_cost u));
   CUpdate (Z.of_nat i) (ODist (u_dist u)) (OMat (u_samples u)) (OCosts (u_costs u)) (OVec (u_weights u))
     (Some (ODist (u_new u)))].
Definition opt_entries (u : upd_rec) : list (string * oval) :=
  [("eval_cost", OCost (u_mean_cost u)); ("eval_sample", OVec (d_mean (u_dist u)));
   ("distribution", ODist (u_dist u)); ("samples", OMat (u_samples u)); ("costs", OCosts (u_costs u));
   ("weights", OVec (u_weights u)); ("distribution_new", ODist (u_new u))].
Lemma opt_calls_log i u : flat_map call_log (opt_calls i u) = update_log oval i (opt_entries u).
Proof. reflexivity. Qed.

Lemma opt_update_inv n i d (s s' : st) r :
  opt_update CV P S category orc n (Z.of_nat i) d s = (s', r) ->
  match r with
  | Ok d' => exists u, u_dist u = d /\ u_new u = d' /\ length (u_costs u) = length (mrows (u_samples u)) /\
      st_trace s' = (st_trace s ++ events_of n u)%list /\ st_db s' = do_calls (st_db s) (opt_calls i u)
  | Err _ => exists rest, st_trace s' = (st_trace s ++ rest)%list /\ interrupted n d rest /\ st_db s' = st_db s
  end.
Proof.
  unfold opt_update. intros H.
  apply bind_inv in H. destruct H as (s1 & r1 & E1 & H). unfold LoopModel.m_eval, LoopModel.m_gen, LoopModel.m_upd, LoopModel.m_roll, LoopModel.m_evalr in E1; apply call_out_inv in E1. destruct E1 as (D1 & T1 & O1).
  destruct r1 as [ce|e]; [|destruct H as [-> ->]; exists []; rewrite app_nil_r; split; [exact T1|]; split; [now left|exact D1]].
  apply bind_inv in H. destruct H as (s2 & r2 & E2 & H). unfold LoopModel.m_eval, LoopModel.m_gen, LoopModel.m_upd, LoopModel.m_roll, LoopModel.m_evalr in E2; apply call_out_inv in E2. destruct E2 as (D2 & T2 & O2).
  destruct r2 as [m|e].
  2:{ destruct H as [-> ->]. exists [EEval (d_mean d) ce]. rewrite T2. split; [exact T1|]. split; [right; left; eauto|congruence]. }
  apply bind_inv in H. destruct H as (s3 & r3 & E3 & H). apply eval_all_inv in E3. destruct E3 as (D3 & cs & T3 & L3 & K3).
  assert (I : interrupted (CV:=CV) n d ([EEval (d_mean d) ce; EGen d n m] ++ map2 EEval (mrows m) cs)%list).
  { right; right. exists ce, m, cs. auto. }
  assert (T : st_trace s3 = (st_trace s ++ [EEval (d_mean d) ce; EGen d n m] ++ map2 EEval (mrows m) cs)%list).
  { rewrite T3, T2, T1, <- !app_assoc. reflexivity. }
  destruct r3 as [cs'|e].
  2:{ destruct H as [-> ->]. eexists; split; [exact T|]. split; [exact I|congruence]. }
  destruct K3 as [-> K3].
  apply bind_inv in H. destruct H as (s4 & r4 & E4 & H). unfold LoopModel.m_eval, LoopModel.m_gen, LoopModel.m_upd, LoopModel.m_roll, LoopModel.m_evalr in E4; apply call_out_inv in E4. destruct E4 as (D4 & T4 & O4).
  destruct r4 as [[d' w]|e].
  2:{ destruct H as [-> ->]. eexists; split; [rewrite T4; exact T|]. split; [exact I|congruence]. }
  cbn in H. injection H as <- <-. exists (UpdRec d ce m cs w d'). cbn [u_dist u_new u_costs u_samples st_trace st_db fst snd].
  split; [reflexivity|]. split; [reflexivity|]. split; [exact K3|]. split.
  - rewrite T4, T, <- !app_assoc. reflexivity.
  - rewrite D4, D3, D2, D1. reflexivity.
Qed.

Fixpoint opt_all_calls (i : nat) (us : list upd_rec) : list (call oval) :=
  match us with [] => [] | u :: us' => opt_calls i u ++ opt_all_calls (Datatypes.S i) us' end.
Lemma opt_all_log i us : flat_map call_log (opt_all_calls i us) = update_logs oval i (map opt_entries us).
Proof.
  revert i; induction us as [|u us IH]; intros i; [reflexivity|]. cbn [opt_all_calls map update_logs].
  rewrite flat_map_app, IH. reflexivity.
Qed.

Lemma opt_loop_inv n k : forall i d (s s' : st) r,
  opt_loop CV P S category orc n i k d s = (s', r) ->
  exists us dlast rest,
    chained u_dist u_new d us dlast /\
    Forall complete us /\
    st_trace s' = (st_trace s ++ flat_map (events_of n) us ++ rest)%list /\
    st_db s' = do_calls (st_db s) (opt_all_calls i us) /\
    match r with
    | Ok d' => length us = k /\ d' = dlast /\ rest = []
    | Err _ => (length us < k)%nat /\ interrupted n dlast rest
    end.
Proof.
  induction k as [|k IH]; intros i d s s' r H; cbn [opt_loop] in H.
  - injection H as <- <-. exists [], d, []. cbn. rewrite app_nil_r. repeat split; auto.
  - apply bind_inv in H. destruct H as (s1 & r1 & E1 & H). apply opt_update_inv in E1.
    destruct r1 as [d1|e].
    + destruct E1 as (u & <- & <- & L & T1 & D1). apply IH in H.
      destruct H as (us & dl & rest & C & F & T & D & R). exists (u :: us), dl, rest.
      split; [split; [reflexivity|exact C]|]. split; [constructor; auto|].
      split; [rewrite T, T1; cbn [flat_map]; now rewrite <- !app_assoc|].
      split; [cbn [opt_all_calls]; rewrite do_calls_app, D, D1; reflexivity|].
      destruct r; cbn [length]; [destruct R as (<- & R); auto|destruct R; split; [lia|auto]].
    + destruct E1 as (rest & T1 & I & D1). destruct H as [-> ->]. exists [], d, rest.
      split; [reflexivity|]. split; [constructor|]. split; [exact T1|]. split; [exact D1|]. cbn. split; [lia|exact I].
Qed.

Lemma run_optimization_full w0 r cf up d0 k n (s s' : st) res :
  run_optimization CV P S category orc w0 r cf up d0 k n s = (s', res) ->
  exists us dlast rest cs,
    chained u_dist u_new d0 us dlast /\
    Forall complete us /\
    st_trace s' = (st_trace s ++ flat_map (events_of n) us ++ rest)%list /\
    (forall i u, nth_error us i = Some u -> opt_stored load (st_db s') i u) /\
    st_db s' = do_calls (new_session category OInt w0 n r [("cost_function", cf); ("updater", up)]) cs /\
    flat_map call_log cs = update_logs oval 0 (map opt_entries us) /\
    match res with
    | Ok d' => length us = k /\ d' = dlast /\ rest = []
    | Err _ => (length us < k)%nat /\ interrupted n dlast rest
    end.
Proof.
  unfold run_optimization. intros H. apply opt_loop_inv in H. destruct H as (us & dl & rest & C & F & T & D & R).
  cbn [st_db] in D. exists us, dl, rest, (opt_all_calls 0 us). split; [exact C|]. split; [exact F|]. split; [exact T|].
  split; [|split; [exact D|split; [apply opt_all_log|exact R]]].
  intros i u Hi. rewrite D.
  assert (G : forall nm is v, recent oval (sample_name nm is) (opt_entries u) = Some v ->
    stored load (do_calls (new_session category OInt w0 n r [("cost_function", cf); ("updater", up)]) (opt_all_calls 0 us)) nm i is v).
  { intros nm is v Hr. unfold stored.
    refine (stored_of_log oval category load OInt w0 n r _ _ (map opt_entries us) [] i (opt_entries u) nm is v _ _ Hr).
    - rewrite opt_all_log. cbn. now rewrite app_nil_r.
    - now apply map_nth_error. }
  repeat split; apply G; reflexivity.
Qed.

(** ** run_optimization_task *)
Definition roll_calls (i : nat) (j : nat) (x : list R) (vc : CV * cost) : list (call oval) :=
  [CTell (OVec x) "sample" (IInt (Z.of_nat i)) (IInt (Z.of_nat j));
   CTell (OVars (fst vc)) "cost_vars" (IInt (Z.of_nat i)) (IInt (Z.of_nat j));
   CTell (OCost (snd vc)) "cost" (IInt (Z.of_nat i)) (IInt (Z.of_nat j))].
Definition roll_entries (j : nat) (x : list R) (vc : CV * cost) : list (string * oval) :=
  [(sample_name "sample" (IInt (Z.of_nat j)), OVec x);
   (sample_name "cost_vars" (IInt (Z.of_nat j)), OVars (fst vc));
   (sample_name "cost" (IInt (Z.of_nat j)), OCost (snd vc))].
Fixpoint rolls_calls i j (xs : list (list R)) (vcs : list (CV * cost)) : list (call oval) :=
  match xs, vcs with
  | x :: xs', vc :: vcs' => roll_calls i j x vc ++ rolls_calls i (Datatypes.S j) xs' vcs'
  | _, _ => []
  end.
Fixpoint rolls_entries j (xs : list (list R)) (vcs : list (CV * cost)) : list (string * oval) :=
  match xs, vcs with
  | x :: xs', vc :: vcs' => roll_entries j x vc ++ rolls_entries (Datatypes.S j) xs' vcs'
  | _, _ => []
  end.
Lemma rolls_log i xs : forall j vcs, flat_map call_log (rolls_calls i j xs vcs) = update_log oval i (rolls_entries j xs vcs).
Proof.
  induction xs as [|x xs IH]; intros j [|vc vcs]; try reflexivity. cbn [rolls_calls rolls_entries].
  rewrite flat_map_app, IH. reflexivity.
Qed.

Lemma rolls_plain xs : forall j vcs, Forall (fun e => plain_string (fst e)) (rolls_entries j xs vcs).
Proof.
  induction xs as [|x xs IH]; intros j [|vc vcs]; try (apply Forall_nil). cbn [rolls_entries].
  apply Forall_app. split; [|apply IH]. unfold roll_entries.
  repeat (apply Forall_cons; [apply label_plain; cbn; repeat (first [apply conj | discriminate | exact I])|]). apply Forall_nil.
Qed.

(** the states of the outside world during the rollouts of an update *)
Fixpoint roll_outs (o : S) (xs : list (list R)) (vcs : list (CV * cost)) (o' : S) : Prop :=
  match xs, vcs with
  | [], [] => o = o'
  | x :: xs', (v, c) :: vcs' => exists o1 o2, o_roll CV S orc o x = (o1, Ok v) /\
      o_evalr CV S orc o1 v x = (o2, Ok c) /\ roll_outs o2 xs' vcs' o'
  | _, _ => False
  end.
Definition task_outs (n : Z) (o : S) (t : task_rec CV) (o' : S) : Prop :=
  let u := t_upd t in
  exists o1 o2 o3 o4,
    o_roll CV S orc o (d_mean (u_dist u)) = (o1, Ok (t_mean_vars t)) /\
    o_evalr CV S orc o1 (t_mean_vars t) (d_mean (u_dist u)) = (o2, Ok (u_mean_cost u)) /\
    o_gen CV S orc o2 (u_dist u) n = (o3, Ok (u_samples u)) /\
    roll_outs o3 (mrows (u_samples u)) (combine (t_vars t) (u_costs u)) o4 /\
    o_upd CV S orc o4 (u_dist u) (u_samples u) (u_costs u) = (o', Ok (u_new u, u_weights u)).
Fixpoint tasks_outs (n : Z) (o : S) (ts : list (task_rec CV)) (o' : S) : Prop :=
  match ts with
  | [] => o = o'
  | t :: ts' => exists o1, task_outs n o t o1 /\ tasks_outs n o1 ts' o'
  end.

Lemma rollouts_inv i xs : forall j (s s' : st) r,
  rollouts CV P S category orc (Z.of_nat i) j xs s = (s', r) ->
  exists vcs tail,
    st_trace s' = (st_trace s ++ concat (map2 rollout_events xs vcs) ++ tail)%list /\
    st_db s' = do_calls (st_db s) (rolls_calls i j xs vcs) /\
    (length vcs <= length xs)%nat /\
    match r with
    | Ok cs => cs = map snd vcs /\ length vcs = length xs /\ tail = [] /\ roll_outs (st_out s) xs vcs (st_out s')
    | Err _ => tail = [] \/ exists x v, nth_error xs (length vcs) = Some x /\ tail = [ERoll x v]
    end.
Proof.
  induction xs as [|x xs IH]; intros j s s' r H; cbn [rollouts] in H.
  - injection H as <- <-. exists [], []. cbn. rewrite app_nil_r. repeat split; auto.
  - apply bind_inv in H. destruct H as (s1 & r1 & E1 & H). unfold LoopModel.m_eval, LoopModel.m_gen, LoopModel.m_upd, LoopModel.m_roll, LoopModel.m_evalr in E1; apply call_out_inv in E1. destruct E1 as (D1 & T1 & O1).
    destruct r1 as [v|e].
    2:{ destruct H as [-> ->]. exists [], []. cbn. rewrite app_nil_r. repeat split; auto. lia. }
    apply bind_inv in H. destruct H as (s2 & r2 & E2 & H). unfold LoopModel.m_eval, LoopModel.m_gen, LoopModel.m_upd, LoopModel.m_roll, LoopModel.m_evalr in E2; apply call_out_inv in E2. destruct E2 as (D2 & T2 & O2).
    destruct r2 as [c|e].
    2:{ destruct H as [-> ->]. exists [], [ERoll x v]. cbn. rewrite T2, T1. repeat split; [congruence|lia|]. right. eauto. }
    apply bind_inv in H. destruct H as (s3 & r3 & E3 & H). cbn in E3. injection E3 as <- <-.
    apply bind_inv in H. destruct H as (s4 & r4 & E4 & H). apply IH in E4.
    destruct E4 as (vcs & tail & T4 & D4 & L4 & K4). cbn [st_trace st_db] in T4, D4.
    assert (T : st_trace s4 = (st_trace s ++ concat (map2 rollout_events (x :: xs) ((v, c) :: vcs)) ++ tail)%list).
    { rewrite T4, T2, T1. cbn [map2 concat rollout_events fst snd]. rewrite <- !app_assoc. reflexivity. }
    assert (D : st_db s4 = do_calls (st_db s) (rolls_calls i j (x :: xs) ((v, c) :: vcs))).
    { cbn [rolls_calls]. rewrite do_calls_app, D4, D2, D1. reflexivity. }
    destruct r4 as [cs|e].
    + cbn in H. injection H as <- <-. destruct K4 as (-> & K4 & -> & K5). exists ((v, c) :: vcs), [].
      split; [exact T|]. split; [exact D|]. cbn. repeat split; try lia. exists (st_out s1), (st_out s2). auto.
    + destruct H as [-> ->]. exists ((v, c) :: vcs), tail. split; [exact T|]. split; [exact D|]. cbn. split; [lia|exact K4].
Qed.

Definition task_calls (i : nat) (t : task_rec CV) : list (call oval) :=
  let u := t_upd t in
  ([CEval (Z.of_nat i) (OVec (d_mean (u_dist u))) (OCost (u_mean_cost u));
    CTell (OVars (t_mean_vars t)) "eval_cost_vars" (IInt (Z.of_nat i)) INone]
   ++ rolls_calls i 0 (mrows (u_samples u)) (combine (t_vars t) (u_costs u))
   ++ [CUpdate (Z.of_nat i) (ODist (u_dist u)) (OMat (u_samples u)) (OCosts (u_costs u)) (OVec (u_weights u))
        (Some (ODist (u_new u)))])%list.
Definition task_entries (t : task_rec CV) : list (string * oval) :=
  let u := t_upd t in
  ([("eval_cost", OCost (u_mean_cost u)); ("eval_sample", OVec (d_mean (u_dist u)));
    ("eval_cost_vars", OVars (t_mean_vars t))]
   ++ rolls_entries 0 (mrows (u_samples u)) (combine (t_vars t) (u_costs u))
   ++ [("distribution", ODist (u_dist u)); ("samples", OMat (u_samples u)); ("costs", OCosts (u_costs u));
       ("weights", OVec (u_weights u)); ("distribution_new", ODist (u_new u))])%list.
Lemma task_calls_log i t : flat_map call_log (task_calls i t) = update_log oval i (task_entries t).
Proof.
  unfold task_calls, task_entries. rewrite !flat_map_app. unfold update_log at 1. rewrite !map_app. rewrite rolls_log. reflexivity.
Qed.

Lemma combine_split_snd (vcs : list (CV * cost)) : combine (map fst vcs) (map snd vcs) = vcs.
Proof. induction vcs as [|[v c] vcs IH]; [reflexivity|]. cbn. now rewrite IH. Qed.

Lemma task_update_inv n i d (s s' : st) r :
  task_update CV P S category orc n (Z.of_nat i) d s = (s', r) ->
  match r with
  | Ok d' => exists t, u_dist (t_upd t) = d /\ u_new (t_upd t) = d' /\
      length (u_costs (t_upd t)) = length (mrows (u_samples (t_upd t))) /\
      length (t_vars t) = length (mrows (u_samples (t_upd t))) /\
      st_trace s' = (st_trace s ++ task_events n t)%list /\ st_db s' = do_calls (st_db s) (task_calls i t) /\
      task_outs n (st_out s) t (st_out s')
  | Err _ => exists rest cs es, st_trace s' = (st_trace s ++ rest)%list /\ interrupted_task n d rest /\
      st_db s' = do_calls (st_db s) cs /\ flat_map call_log cs = update_log oval i es /\
      Forall (fun e => plain_string (fst e)) es
  end.
Proof.
  unfold task_update. intros H.
  apply bind_inv in H. destruct H as (s1 & r1 & E1 & H). unfold LoopModel.m_eval, LoopModel.m_gen, LoopModel.m_upd, LoopModel.m_roll, LoopModel.m_evalr in E1; apply call_out_inv in E1. destruct E1 as (D1 & T1 & O1).
  destruct r1 as [v|e].
  2:{ destruct H as [-> ->]. exists [], [], []. rewrite app_nil_r. split; [exact T1|]. split; [now left|]. split; [exact D1|split; [reflexivity|constructor]]. }
  apply bind_inv in H. destruct H as (s2 & r2 & E2 & H). unfold LoopModel.m_eval, LoopModel.m_gen, LoopModel.m_upd, LoopModel.m_roll, LoopModel.m_evalr in E2; apply call_out_inv in E2. destruct E2 as (D2 & T2 & O2).
  destruct r2 as [c|e].
  2:{ destruct H as [-> ->]. exists [ERoll (d_mean d) v], [], []. rewrite T2. split; [exact T1|]. split; [right; left; eauto|].
      split; [cbn; congruence|split; [reflexivity|constructor]]. }
  apply bind_inv in H. destruct H as (s3 & r3 & E3 & H). cbn in E3. injection E3 as <- <-.
  set (c0 := [CEval (Z.of_nat i) (OVec (d_mean d)) (OCost c); CTell (OVars v) "eval_cost_vars" (IInt (Z.of_nat i)) INone] : list (call oval)).
  apply bind_inv in H. destruct H as (s4 & r4 & E4 & H). unfold LoopModel.m_eval, LoopModel.m_gen, LoopModel.m_upd, LoopModel.m_roll, LoopModel.m_evalr in E4; apply call_out_inv in E4. destruct E4 as (D4 & T4 & O4).
  cbn [st_trace st_db] in D4, T4.
  assert (D4' : st_db s4 = do_calls (st_db s) c0) by (rewrite D4, D2, D1; reflexivity). clear D4.
  destruct r4 as [m|e].
  2:{ destruct H as [-> ->]. exists (rollout_events (d_mean d) (v, c)), c0, [("eval_cost", OCost c); ("eval_sample", OVec (d_mean d)); ("eval_cost_vars", OVars v)].
      split; [rewrite T4, T2, T1, <- app_assoc; reflexivity|]. split; [right; right; left; eauto|]. split; [exact D4'|split; [reflexivity|]].
      repeat constructor; cbn; repeat (first [apply conj | discriminate | exact I]). }
  apply bind_inv in H. destruct H as (s5 & r5 & E5 & H). apply rollouts_inv in E5.
  destruct E5 as (vcs & tail & T5 & D5 & L5 & K5).
  assert (T : st_trace s5 = (st_trace s ++ rollout_events (d_mean d) (v, c) ++ [EGen d n m]
           ++ concat (map2 rollout_events (mrows m) vcs) ++ tail)%list).
  { rewrite T5, T4, T2, T1, <- !app_assoc. reflexivity. }
  assert (D : st_db s5 = do_calls (st_db s) (c0 ++ rolls_calls i 0 (mrows m) vcs)) by (rewrite do_calls_app, D5, D4'; reflexivity).
  assert (LG : flat_map call_log (c0 ++ rolls_calls i 0 (mrows m) vcs) = update_log oval i
    ([("eval_cost", OCost c); ("eval_sample", OVec (d_mean d)); ("eval_cost_vars", OVars v)] ++ rolls_entries 0 (mrows m) vcs)).
  { rewrite flat_map_app, rolls_log. reflexivity. }
  assert (PL : Forall (fun e => plain_string (fst e))
    ([("eval_cost", OCost c); ("eval_sample", OVec (d_mean d)); ("eval_cost_vars", OVars v)] ++ rolls_entries 0 (mrows m) vcs)).
  { apply Forall_app. split; [|apply rolls_plain]. repeat constructor; cbn; repeat (first [apply conj | discriminate | exact I]). }
  destruct r5 as [cs|e].
  2:{ destruct H as [-> ->]. eexists _, _, _. split; [exact T|]. split; [|split; [exact D|split; [exact LG|exact PL]]].
      right; right; right. exists (v, c), m, vcs, tail. split; [reflexivity|]. destruct K5 as [K5|K5]; [left; split; auto|right; exact K5]. }
  destruct K5 as (-> & K5 & -> & O5).
  apply bind_inv in H. destruct H as (s6 & r6 & E6 & H). unfold LoopModel.m_eval, LoopModel.m_gen, LoopModel.m_upd, LoopModel.m_roll, LoopModel.m_evalr in E6; apply call_out_inv in E6. destruct E6 as (D6 & T6 & O6).
  destruct r6 as [[d' w]|e].
  2:{ destruct H as [-> ->]. eexists _, _, _. split; [rewrite T6; exact T|]. split; [|split; [rewrite D6; exact D|split; [exact LG|exact PL]]].
      right; right; right. exists (v, c), m, vcs, []. split; [reflexivity|]. left. split; auto. }
  cbn in H. injection H as <- <-.
  exists (TaskRec (UpdRec d c m (map snd vcs) w d') v (map fst vcs)). cbn [t_upd t_vars u_dist u_new u_costs u_samples st_trace st_db fst snd].
  rewrite !map_length. split; [reflexivity|]. split; [reflexivity|]. split; [exact K5|]. split; [exact K5|]. split; [|split].
  - rewrite T6, T. unfold task_events. cbn [t_upd t_vars t_mean_vars u_dist u_new u_costs u_samples u_weights u_mean_cost].
    rewrite combine_split_snd, app_nil_r, <- !app_assoc. reflexivity.
  - unfold task_calls. cbn [t_upd t_vars t_mean_vars u_dist u_new u_costs u_samples u_weights u_mean_cost].
    rewrite combine_split_snd, app_assoc, do_calls_app, D6, D. reflexivity.
  - unfold task_outs. cbn [t_upd t_vars t_mean_vars u_dist u_new u_costs u_samples u_weights u_mean_cost st_out].
    rewrite combine_split_snd. exists (st_out s1), (st_out s2), (st_out s4), (st_out s5). repeat split; auto.
Qed.

Fixpoint task_all_calls (i : nat) (ts : list (task_rec CV)) : list (call oval) :=
  match ts with [] => [] | t :: ts' => task_calls i t ++ task_all_calls (Datatypes.S i) ts' end.
Lemma task_all_log i ts : flat_map call_log (task_all_calls i ts) = update_logs oval i (map task_entries ts).
Proof.
  revert i; induction ts as [|t ts IH]; intros i; [reflexivity|]. cbn [task_all_calls map update_logs].
  rewrite flat_map_app, IH, task_calls_log. reflexivity.
Qed.

Lemma task_loop_inv n k : forall i d (s s' : st) r,
  task_loop CV P S category orc n i k d s = (s', r) ->
  exists ts dlast rest cs es,
    chained t_before t_after d ts dlast /\
    Forall t_complete ts /\
    st_trace s' = (st_trace s ++ flat_map (task_events n) ts ++ rest)%list /\
    st_db s' = do_calls (st_db s) (task_all_calls i ts ++ cs) /\
    flat_map call_log cs = update_log oval (i + length ts) es /\
    Forall (fun e => plain_string (fst e)) es /\
    match r with
    | Ok d' => length ts = k /\ d' = dlast /\ rest = [] /\ cs = [] /\ tasks_outs n (st_out s) ts (st_out s')
    | Err _ => (length ts < k)%nat /\ interrupted_task n dlast rest
    end.
Proof.
  induction k as [|k IH]; intros i d s s' r H; cbn [task_loop] in H.
  - injection H as <- <-. exists [], d, [], [], []. cbn. rewrite app_nil_r. repeat split; auto.
  - apply bind_inv in H. destruct H as (s1 & r1 & E1 & H). apply task_update_inv in E1.
    destruct r1 as [d1|e].
    + destruct E1 as (t & <- & <- & L1 & L2 & T1 & D1 & O1). apply IH in H.
      destruct H as (ts & dl & rest & cs & es & C & F & T & D & LG & PL & R). exists (t :: ts), dl, rest, cs, es.
      split; [split; [reflexivity|exact C]|]. split; [constructor; [split; assumption|exact F]|].
      split; [rewrite T, T1; cbn [flat_map]; now rewrite <- !app_assoc|].
      split; [cbn [task_all_calls]; rewrite <- app_assoc, do_calls_app, D, D1; reflexivity|].
      split; [rewrite LG; cbn [length]; f_equal; lia|]. split; [exact PL|].
      destruct r; cbn [length]; [destruct R as (<- & -> & -> & -> & R); repeat split; auto; exists (st_out s1); auto|destruct R; split; [lia|auto]].
    + destruct E1 as (rest & cs & es & T1 & I & D1 & LG & PL). destruct H as [-> ->]. exists [], d, rest, cs, es.
      split; [reflexivity|]. split; [constructor|]. split; [exact T1|]. split; [exact D1|].
      split; [cbn; rewrite Nat.add_0_r; exact LG|]. split; [exact PL|]. cbn. split; [lia|exact I].
Qed.

Lemma recent_app nm (l l' : list (string * oval)) :
  recent oval nm (l ++ l') = match recent oval nm l' with Some v => Some v | None => recent oval nm l end.
Proof.
  induction l as [|[n v] l IH]; cbn [app recent]; [now destruct (recent oval nm l')|].
  rewrite IH. destruct (recent oval nm l'); reflexivity.
Qed.
Lemma fmt_lead z s : (0 <= z)%Z -> exists c r, fmt 3 z ++ s = String c r /\ is_digit c = true.
Proof.
  intros Hz. pose proof (fmt_digits 3 z Hz) as D. pose proof (fmt_nonempty 3 z) as N.
  destruct (fmt 3 z) as [|c r]; [contradiction|]. cbn in D. exists c, (r ++ s). split; [reflexivity|apply D].
Qed.
Lemma label_literal nm j c r : is_digit c = false -> String.eqb (sample_name nm (IInt (Z.of_nat j))) (String c r) = false.
Proof.
  intros Hc. apply String.eqb_neq. intros E. cbn [sample_name] in E.
  destruct (fmt_lead (Z.of_nat j) ("_" ++ nm)) as (c' & r' & E' & D); [lia|]. rewrite E' in E. injection E as -> _. congruence.
Qed.
Lemma literal_label nm j c r : is_digit c = false -> String.eqb (String c r) (sample_name nm (IInt (Z.of_nat j))) = false.
Proof. intros. rewrite String.eqb_sym. now apply label_literal. Qed.
Lemma label_eqb nm j nm' j' : String.eqb (sample_name nm (IInt (Z.of_nat j))) (sample_name nm' (IInt (Z.of_nat j'))) =
  (Nat.eqb j j' && String.eqb nm nm')%bool.
Proof.
  destruct (String.eqb (sample_name nm _) _) eqn:E.
  - apply String.eqb_eq in E. cbn [sample_name] in E. apply digits_split in E; try reflexivity; try (apply fmt_digits; lia).
    destruct E as [E1 E2]. apply fmt_inj in E1; [|lia|lia]. subst. replace j' with j by lia.
    now rewrite Nat.eqb_refl, String.eqb_refl.
  - apply String.eqb_neq in E. destruct (Nat.eqb_spec j j') as [->|]; [|reflexivity]. cbn [andb].
    destruct (String.eqb_spec nm nm') as [->|]; [|reflexivity]. contradiction.
Qed.

Lemma recent_rolls_literal c r xs : is_digit c = false -> forall j vcs, recent oval (String c r) (rolls_entries j xs vcs) = None.
Proof.
  intros Hc. induction xs as [|x xs IH]; intros j [|vc vcs]; try reflexivity. cbn [rolls_entries roll_entries app recent].
  rewrite IH. rewrite !literal_label by exact Hc. reflexivity.
Qed.
Lemma recent_rolls_lt nm xs : forall b j vcs, (j < b)%nat ->
  recent oval (sample_name nm (IInt (Z.of_nat j))) (rolls_entries b xs vcs) = None.
Proof.
  induction xs as [|x xs IH]; intros b j [|vc vcs] Hj; try reflexivity.
  cbn [rolls_entries roll_entries app recent]. rewrite IH by lia. rewrite !label_eqb.
  destruct (Nat.eqb_spec j b); [lia|]. reflexivity.
Qed.
Lemma recent_rolls nm xs x vc v : forall b j vcs, nth_error xs j = Some x -> nth_error vcs j = Some vc ->
  recent oval (sample_name nm (IInt (Z.of_nat (b + j)))) (roll_entries (b + j) x vc) = Some v ->
  recent oval (sample_name nm (IInt (Z.of_nat (b + j)))) (rolls_entries b xs vcs) = Some v.
Proof.
  induction xs as [|x0 xs IH]; intros b j vcs Hx Hv Hr; [destruct j; discriminate|].
  destruct vcs as [|vc0 vcs]; [destruct j; discriminate|]. cbn [rolls_entries]. rewrite recent_app.
  destruct j as [|j].
  - injection Hx as ->. injection Hv as ->. rewrite Nat.add_0_r in *. rewrite recent_rolls_lt by lia. exact Hr.
  - rewrite Nat.add_succ_r in *. change (Datatypes.S (b + j)) with (Datatypes.S b + j)%nat in *.
    rewrite (IH (Datatypes.S b) j vcs Hx Hv Hr). reflexivity.
Qed.

Lemma task_entries_hold (has : string -> idx -> oval -> Prop) t :
  (forall nm is v, recent oval (sample_name nm is) (task_entries t) = Some v -> has nm is v) ->
  t_complete t -> task_entries_are has t.
Proof.
  intros G' [C1 C2]. unfold complete in C1.
  assert (Lit : forall nm is v c r, sample_name nm is = String c r -> is_digit c = false ->
     match recent oval (String c r) [("distribution", ODist (u_dist (t_upd t))); ("samples", OMat (u_samples (t_upd t))); ("costs", OCosts (u_costs (t_upd t)));
       ("weights", OVec (u_weights (t_upd t))); ("distribution_new", ODist (u_new (t_upd t)))] with
     | Some v' => v' = v
     | None => recent oval (String c r) [("eval_cost", OCost (u_mean_cost (t_upd t))); ("eval_sample", OVec (d_mean (u_dist (t_upd t))));
    ("eval_cost_vars", OVars (t_mean_vars t))] = Some v
     end -> has nm is v).
  { intros nm is v c r E Hd H. apply G'. unfold task_entries. rewrite E, recent_app, recent_app, recent_rolls_literal by exact Hd.
    destruct (recent oval (String c r) [("distribution", _); _; _; _; _]) as [v'|]; [now f_equal|exact H]. }
  split; [|split].
  - repeat split; eapply Lit; try reflexivity; cbn; reflexivity.
  - eapply Lit; reflexivity.
  - intros j x v c Hx Hv Hc.
    assert (Hvc : nth_error (combine (t_vars t) (u_costs (t_upd t))) j = Some (v, c)).
    { clear - Hv Hc. revert Hc Hv. generalize (u_costs (t_upd t)) as l2. generalize (t_vars t) as l1. induction j as [|j IH]; intros [|a l1] [|b l2] Hc Hv; try discriminate; cbn in *; [congruence|]. now apply IH. }
    assert (R : forall nm w, recent oval (sample_name nm (IInt (Z.of_nat j))) (roll_entries j x (v, c)) = Some w ->
      has nm (IInt (Z.of_nat j)) w).
    { intros nm w Hr. apply G'. unfold task_entries. rewrite recent_app, recent_app.
      pose proof (recent_rolls nm _ x (v, c) w 0 j _ Hx Hvc Hr) as E. cbn [Nat.add] in E. rewrite E. cbn [recent].
      rewrite !label_literal by reflexivity. reflexivity. }
    repeat split; apply R; cbn [roll_entries recent fst snd]; rewrite !label_eqb, Nat.eqb_refl; reflexivity.
Qed.

Lemma run_optimization_task_full w0 r tk ts0 up d0 k n (s s' : st) res :
  run_optimization_task CV P S category orc w0 r tk ts0 up d0 k n s = (s', res) ->
  exists ts dlast rest cs es,
    chained t_before t_after d0 ts dlast /\
    Forall t_complete ts /\
    st_trace s' = (st_trace s ++ flat_map (task_events n) ts ++ rest)%list /\
    (forall i t, nth_error ts i = Some t -> task_stored load (st_db s') i t) /\
    st_db s' = do_calls (new_session category OInt w0 n r [("task", tk); ("task_solver", ts0); ("updater", up)]) cs /\
    flat_map call_log cs = (update_logs oval 0 (map task_entries ts) ++ update_log oval (length ts) es)%list /\
    Forall (fun e => plain_string (fst e)) es /\
    match res with
    | Ok d' => length ts = k /\ d' = dlast /\ rest = [] /\ tasks_outs n (st_out s) ts (st_out s')
    | Err _ => (length ts < k)%nat /\ interrupted_task n dlast rest
    end.
Proof.
  unfold run_optimization_task. intros H. apply task_loop_inv in H.
  destruct H as (ts & dl & rest & cs & es & C & F & T & D & LG & PL & R). cbn [st_db] in D.
  exists ts, dl, rest, (task_all_calls 0 ts ++ cs)%list, es. split; [exact C|]. split; [exact F|]. split; [exact T|].
  assert (LG' : flat_map call_log (task_all_calls 0 ts ++ cs) = (update_logs oval 0 (map task_entries ts) ++ update_log oval (length ts) es)%list).
  { rewrite flat_map_app, task_all_log, LG. reflexivity. }
  split; [|split; [exact D|split; [exact LG'|split; [exact PL|destruct res; tauto]]]].
  intros i t Hi. rewrite D. apply task_entries_hold.
  - intros nm is v Hr. unfold stored.
    apply (stored_of_log oval category load OInt w0 n r _ _ (map task_entries ts) es i (task_entries t)); [|now apply map_nth_error|exact Hr].
    rewrite LG', map_length. reflexivity.
  - rewrite Forall_forall in F. apply F. eapply nth_error_In; eauto.
Qed.
End P.
