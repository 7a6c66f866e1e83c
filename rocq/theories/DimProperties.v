(** C114: the dimensions of a DMP do not influence each other: each one moves as if it were alone. *)
From Coq Require Import String Lia Lra.
From Verif Require Import Base BaseLemmas DynModel DynSpec ParamModel TrajModel DmpModel DmpSpec DmpSpec2 DmpExamples DmpProofs5 DmpProofs14 IntModel PushSpec ReachSpec DimSpec DimProofs DimProofs2 DimProofs3 DimProofs4.
Open Scope R_scope.

(** Two DMPs, of any numbers of dimensions, in which dimension i and dimension j are set in the same way. In states which agree in these
    dimensions, whatever the other dimensions are and wherever they are, any number of steps is possible for both, and they lead to
    states which agree in these dimensions. (With m' = m and j = i: a disturbance of one dimension does not show in the others.) *)
Theorem C114_steps : forall pf pf' m m' i j method dt x x' k, wf pf m -> wf pf' m' -> same_dimension pf pf' m m' i j ->
  unrestricted (m_phase m) -> unrestricted (m_gating m) -> length x = dim_x m -> length x' = dim_x m' -> same_state m m' i j x x' ->
  exists m2 y m2' y', steps pf method m dt x k = Ok (m2, y) /\ steps pf' method m' dt x' k = Ok (m2', y') /\ same_state m m' i j y y'.
Proof.
  intros pf pf' m m' i j me dt x x' k W W' Sd U1 U2 L L' V.
  destruct (steps_same pf pf' m m' i j W W' Sd U1 U2 me dt k m m' x x' (touched_refl m) (touched_refl m') L L' V) as (m2 & y & m2' & y' & E & E' & _ & _ & _ & _ & V2).
  now exists m2, y, m2', y'.
Qed.
Print Assumptions C114_steps.

(** The same for executions in which the goal is changed on the way (C113): after the same numbers of steps, to goals which agree in these
    dimensions. What the new goals are in the other dimensions does not show in this one. *)
Theorem C114_new_goals : forall pf pf' m m' i j method dt x x' plan plan', sound pf m -> ready m -> sound pf' m' -> ready m' ->
  same_dimension pf pf' m m' i j -> m_scaling m' = m_scaling m -> unrestricted (m_phase m) -> unrestricted (m_gating m) ->
  length x = dim_x m -> length x' = dim_x m' -> same_state m m' i j x x' -> same_plan (m_dim m) (m_dim m') i j plan plan' ->
  exists m2 y m2' y', chase pf method m dt x plan = Ok (m2, y) /\ chase pf' method m' dt x' plan' = Ok (m2', y') /\ same_state m m' i j y y'.
Proof.
  intros pf pf' m m' i j me dt x x' plan plan' S Rd S' Rd' Sd Sc U1 U2 L L' V Pl.
  exact (chase_same pf pf' i j me dt plan plan' m m' m m' x x' S Rd S' Rd' Sd Sc U1 U2 (touched_refl m) (touched_refl m') L L' V Pl).
Qed.
Print Assumptions C114_new_goals.

(** The same for the analytical solutions, at all times, with states and their rates of change. *)
Theorem C114_rollouts : forall pf pf' m m' i j ts sup, wf pf m -> wf pf' m' -> same_dimension pf pf' m m' i j -> same_start m m' i j ->
  synced m -> synced m' -> plain_goal m -> plain_goal m' -> ts <> [] ->
  exists r r', ana pf m ts sup = Ok r /\ ana pf' m' ts sup = Ok r' /\
    forall k, (k < length ts)%nat -> same_state m m' i j (nth k (a_xs r) []) (nth k (a_xs r') []) /\ same_state m m' i j (nth k (a_xds r) []) (nth k (a_xds r') []).
Proof. intros pf pf' m m' i j ts sup W W' Sd St Sy Sy' Pg Pg'. exact (rollouts_same pf pf' m m' i j W W' Sd St Sy Sy' Pg Pg' ts sup). Qed.
Print Assumptions C114_rollouts.

(** A new DMP of the types of Ijspeert 2002, Kulvicius 2012 and the countdown type, of any number of dimensions, and the new DMP of one
    dimension with the start, goal, damping coefficient and function approximator of its dimension i: they have the same analytical
    solutions, and the same step-by-step executions, in this dimension. *)
Theorem C114_alone : forall pf ty tau y0 attr fas kw m i f, (forall s b, ty <> Sct23 s b) -> 0 < tau -> length attr = length y0 -> full_kw (length y0) kw ->
  opt (k_scaling kw) NoScaling = NoScaling -> (length y0 <= length fas)%nat ->
  (forall k f, nth_error fas k = Some f -> is_trained f = true -> forall ph, exists v, pf k (f_model f) ph = Ok v) ->
  (i < length y0)%nat -> nth_error fas i = Some f -> new_dmp ty tau y0 attr (Some fas) kw = Ok m ->
  exists m', new_dmp ty tau [nth i y0 0] [nth i attr 0] (Some [f]) (alone_kw kw i) = Ok m' /\
  (forall ts sup, ts <> [] -> exists r r', ana pf m ts sup = Ok r /\ ana (alone pf i) m' ts sup = Ok r' /\
     forall k, (k < length ts)%nat -> same_state m m' i 0 (nth k (a_xs r) []) (nth k (a_xs r') []) /\ same_state m m' i 0 (nth k (a_xds r) []) (nth k (a_xds r') [])) /\
  (forall method dt, exists m0 x xd m0' x' xd', m_start pf m None = Ok (m0, x, xd) /\ m_start (alone pf i) m' None = Ok (m0', x', xd') /\ same_state m m' i 0 x x' /\
     forall k, exists m2 y m2' y', steps pf method m0 dt x k = Ok (m2, y) /\ steps (alone pf i) method m0' dt x' k = Ok (m2', y') /\ same_state m m' i 0 y y').
Proof.
  intros pf ty tau y0 attr fas kw m i f Hty Ht La K Ks Lf Hp Hi Ef E.
  destruct (alone_same pf ty tau y0 attr fas kw m i f Hty Ht La K Ks Lf Hp Hi Ef E) as (m' & E' & Sd & St & W & W' & Sy & Sy' & Pg & Pg' & Rg & Rg' & U1 & U2).
  exists m'. split; [exact E'|]. split.
  - intros ts sup Hn. exact (rollouts_same pf (alone pf i) m m' i 0 W W' Sd St Sy Sy' Pg Pg' ts sup Hn).
  - intros me dt. exact (executions_same pf (alone pf i) m m' i 0 W W' Sd St Sy Sy' Pg Pg' me dt U1 U2 Rg Rg').
Qed.
Print Assumptions C114_alone.

(** A DMP of two dimensions with different starts, goals, damping coefficients and function approximators *)
Definition e_kw : dmp_kw := Kw None (Some (PVec [20; 30])) None None None None None None.
Definition e_fa (w : R) : fa := Fa [("weights"%string, PArr (Arr [1%nat] [w]))] (Some 1%nat) None.
Definition e_pf : nat -> list (string * pval) -> R -> res R := fun i ps ph =>
  match lookup ps "weights" with Some (PArr (Arr _ (w :: _))) => Ok ((INR i + w) * ph) | _ => Ok 0 end.
Lemma e_total : forall k f, nth_error [e_fa 3; e_fa 4] k = Some f -> is_trained f = true -> forall ph, exists v, e_pf k (f_model f) ph = Ok v.
Proof. intros [|[|[|k]]] f E _ ph; cbn in E; try discriminate; injection E as <-; cbn; eauto. Qed.
Lemma e_new : exists m, new_dmp Kulvicius 2 [5; 1] [7; 4] (Some [e_fa 3; e_fa 4]) e_kw = Ok m /\ full_kw 2 e_kw /\ (forall s b, Kulvicius <> Sct23 s b).
Proof.
  destruct (new_dmp_ok e_pf Kulvicius 2 [5; 1] [7; 4] (Some [e_fa 3; e_fa 4]) e_kw ltac:(lra) eq_refl) as (m & E & _).
  { repeat split. } { exact I. } { split; [right; cbn; lia|exact e_total]. }
  exists m. split; [exact E|]. split; [repeat split|discriminate].
Qed.
Example C114_case : exists m m', wf e_pf m /\ wf (alone e_pf 1) m' /\ same_dimension e_pf (alone e_pf 1) m m' 1 0 /\ same_start m m' 1 0 /\ synced m /\ synced m' /\ plain_goal m /\
  plain_goal m' /\ unrestricted (m_phase m) /\ unrestricted (m_gating m) /\ m_dim m = 2%nat /\ m_dim m' = 1%nat /\
  same_state m m' 1 0 [10; 20; 30; 40; 50; 60; 0.7; 0.8; 90; 91] [20; 40; 60; 0.7; 0.8; 9] /\ length [10; 20; 30; 40; 50; 60; 0.7; 0.8; 90; 91] = dim_x m /\ length [20; 40; 60; 0.7; 0.8; 9] = dim_x m'.
Proof.
  destruct e_new as (m & E & K & T).
  destruct (alone_same e_pf Kulvicius 2 [5; 1] [7; 4] [e_fa 3; e_fa 4] e_kw m 1 (e_fa 4) T ltac:(lra) eq_refl K eq_refl ltac:(cbn; lia) e_total ltac:(cbn; lia) eq_refl E)
    as (m' & E' & Sd & St & W & W' & Sy & Sy' & Pg & Pg' & Rg & Rg' & U1 & U2).
  assert (P2 : 0 < 2) by lra. assert (K' : full_kw 1 (alone_kw e_kw 1)) by (repeat split). destruct (new_parts Kulvicius 2 [5; 1] [7; 4] (Some [e_fa 3; e_fa 4]) e_kw m T P2 K E) as (_ & D & _). destruct (new_parts Kulvicius 2 [1] [4] (Some [e_fa 4]) (alone_kw e_kw 1) m' T P2 K' E') as (_ & D' & _). cbn in D, D'.
  exists m, m'. do 10 (split; [assumption|]). split; [exact D|]. split; [exact D'|]. unfold same_state, dim_x. rewrite D, D'. repeat split.
Qed.
Example C114_alone_case : exists m m', new_dmp Kulvicius 2 [5; 1] [7; 4] (Some [e_fa 3; e_fa 4]) e_kw = Ok m /\ full_kw 2 e_kw /\ (forall s b, Kulvicius <> Sct23 s b) /\
  new_dmp Kulvicius 2 [1] [4] (Some [e_fa 4]) (alone_kw e_kw 1) = Ok m' /\ k_alpha (alone_kw e_kw 1) = Some (PScal 30).
Proof.
  destruct e_new as (m & E & K & T).
  destruct (C114_alone e_pf Kulvicius 2 [5; 1] [7; 4] [e_fa 3; e_fa 4] e_kw m 1 (e_fa 4) T ltac:(lra) eq_refl K eq_refl ltac:(cbn; lia) e_total ltac:(cbn; lia) eq_refl E) as (m' & E' & _).
  exists m, m'. split; [exact E|]. split; [exact K|]. split; [exact T|]. split; [exact E'|reflexivity].
Qed.
Example C114_new_goals_case : exists m m', sound e_pf m /\ ready m /\ sound (alone e_pf 1) m' /\ ready m' /\ same_dimension e_pf (alone e_pf 1) m m' 1 0 /\
  m_scaling m' = m_scaling m /\ same_plan (m_dim m) (m_dim m') 1 0 [(3%nat, [8; 9]); (5%nat, [1; 2])] [(3%nat, [9]); (5%nat, [2])].
Proof.
  destruct e_new as (m & E & K & T).
  destruct (alone_same e_pf Kulvicius 2 [5; 1] [7; 4] [e_fa 3; e_fa 4] e_kw m 1 (e_fa 4) T ltac:(lra) eq_refl K eq_refl ltac:(cbn; lia) e_total ltac:(cbn; lia) eq_refl E)
    as (m' & E' & Sd & _).
  assert (P2 : 0 < 2) by lra. assert (K' : full_kw 1 (alone_kw e_kw 1)) by (repeat split).
  destruct (new_parts Kulvicius 2 [5; 1] [7; 4] (Some [e_fa 3; e_fa 4]) e_kw m T P2 K E) as (_ & D & _ & _ & Sc & Rq & _).
  destruct (new_parts Kulvicius 2 [1] [4] (Some [e_fa 4]) (alone_kw e_kw 1) m' T P2 K' E') as (_ & D' & _ & _ & Sc' & Rq' & _). cbn in D, D', Sc, Sc'.
  destruct (new_dmp_ok e_pf Kulvicius 2 [5; 1] [7; 4] (Some [e_fa 3; e_fa 4]) e_kw P2 eq_refl K I) as (q & Q & S & _). { split; [right; cbn; lia|exact e_total]. }
  destruct (new_dmp_ok (alone e_pf 1) Kulvicius 2 [1] [4] (Some [e_fa 4]) (alone_kw e_kw 1) P2 eq_refl K' I) as (q' & Q' & S' & _).
  { split; [right; cbn; lia|]. intros k f Ek Tr ph. destruct k as [|[|k]]; cbn in Ek; try discriminate. injection Ek as <-. unfold alone. cbn. eauto. }
  assert (q = m) by (rewrite E in Q; congruence). assert (q' = m') by (cbn [nth] in E'; rewrite E' in Q'; congruence). subst q q'.
  exists m, m'. split; [exact S|]. split. { split; [intros [X|X]; congruence|intros X; congruence]. }
  split; [exact S'|]. split. { split; [intros [X|X]; congruence|intros X; congruence]. }
  split; [exact Sd|]. split; [congruence|]. unfold same_plan. rewrite D, D'. repeat constructor.
Qed.
