(** Numerical integration of a DMP: the object that is passed on makes no difference. *)
From Coq Require Import String.
From Verif Require Import Base BaseLemmas DynModel DynSpec DynProofs DynProofs5 ParamModel DmpModel DmpSpec DmpProofs14 SchedModel IntModel.
Open Scope R_scope.

Section S.
Variable pf : nat -> list (string * pval) -> R -> res R.
(** the results for an object m1 are those of the vector field of m *)
Definition same_as {A} (m : dmp) (r : res (dmp * A)) (s : res A) : Prop :=
  match r, s with Ok (m1, a), Ok b => a = b /\ touched m m1 | Err e, Err e' => e = e' | _, _ => False end.
Lemma diffeq_same m m1 x : touched m m1 -> same_as m (m_diffeq pf m1 x) (rate_of pf m x).
Proof.
  intros T. unfold rate_of, same_as. rewrite (touch_diffeq pf m m1 x T). destruct (m_diffeq pf m x) as [[m2 xd]|] eqn:E; cbn [bind snd]; [|reflexivity].
  split; [reflexivity|]. now apply (diffeq_touch pf m m2 x xd).
Qed.
Lemma dim_touched m m1 : touched m m1 -> dim_x m1 = dim_x m.
Proof. intros (a & p & g & -> & _). reflexivity. Qed.
Definition flat (r : res (dmp * list R * list R)) : res (dmp * (list R * list R)) := let* p := r in Ok (fst (fst p), (snd (fst p), snd p)).
Lemma step_same me m m1 dt x : touched m m1 -> same_as m (flat (m_step pf me m1 dt x)) (int_step (rate_of pf m) (dim_x m) me dt x).
Proof.
  intros T. destruct me; cbn [m_step int_step].
  - unfold m_step_rk, step_rk. rewrite (dim_touched _ _ T). destruct (Nat.eqb _ _); [|reflexivity].
    pose proof (diffeq_same m m1 x T) as D. unfold same_as in D. destruct (m_diffeq pf m1 x) as [[m2 k1]|], (rate_of pf m x) as [k1'|]; try contradiction; cbn [bind]; [|exact D].
    destruct D as [-> T1]. destruct (vop _ x _) as [i2|]; [|reflexivity]. cbn [bind].
    pose proof (diffeq_same m m2 i2 T1) as D. unfold same_as in D. destruct (m_diffeq pf m2 i2) as [[m3 k2]|], (rate_of pf m i2) as [k2'|]; try contradiction; cbn [bind]; [|exact D].
    destruct D as [-> T2]. destruct (vop _ x _) as [i3|]; [|reflexivity]. cbn [bind].
    pose proof (diffeq_same m m3 i3 T2) as D. unfold same_as in D. destruct (m_diffeq pf m3 i3) as [[m4 k3]|], (rate_of pf m i3) as [k3'|]; try contradiction; cbn [bind]; [|exact D].
    destruct D as [-> T3]. destruct (vop _ x _) as [i4|]; [|reflexivity]. cbn [bind].
    pose proof (diffeq_same m m4 i4 T3) as D. unfold same_as in D. destruct (m_diffeq pf m4 i4) as [[m5 k4]|], (rate_of pf m i4) as [k4'|]; try contradiction; cbn [bind]; [|exact D].
    destruct D as [-> T4]. destruct (vop _ k2' k3') as [s23|]; [|reflexivity]. cbn [bind]. destruct (vop _ k1' _) as [s123|]; [|reflexivity]. cbn [bind].
    destruct (vop _ s123 k4') as [s|]; [|reflexivity]. cbn [bind]. destruct (vop _ x _) as [x'|]; [|reflexivity]. cbn [bind].
    pose proof (diffeq_same m m5 x' T4) as D. unfold same_as in D. destruct (m_diffeq pf m5 x') as [[m6 xd]|], (rate_of pf m x') as [xd'|]; try contradiction; cbn [bind]; [|exact D].
    destruct D as [-> T5]. cbn. now split.
  - unfold m_step_euler, step_euler. rewrite (dim_touched _ _ T). destruct (Nat.eqb _ _); [|reflexivity].
    pose proof (diffeq_same m m1 x T) as D. unfold same_as in D. destruct (m_diffeq pf m1 x) as [[m2 k1]|], (rate_of pf m x) as [k1'|]; try contradiction; cbn [bind]; [|exact D].
    destruct D as [-> T1]. destruct (vop _ x _) as [i2|]; [|reflexivity]. cbn. now split.
Qed.
Lemma loop_same me m ts : forall m1 t x, touched m m1 -> same_as m (m_loop pf me m1 t x ts) (int_loop (rate_of pf m) (dim_x m) me t x ts).
Proof.
  induction ts as [|t' ts IH]; intros m1 t x T; cbn [m_loop int_loop]; [now split|].
  pose proof (step_same me m m1 (t' - t) x T) as D. unfold same_as, flat in D.
  destruct (m_step pf me m1 (t' - t) x) as [[[m2 x1] xd1]|], (int_step (rate_of pf m) (dim_x m) me (t' - t) x) as [[x2 xd2]|]; cbn [bind fst snd] in *; try contradiction; [|exact D].
  destruct D as [D T1]. injection D as -> ->. pose proof (IH m2 t' x2 T1) as D. unfold same_as in D.
  destruct (m_loop pf me m2 t' x2 ts) as [[m3 [xs xds]]|], (int_loop (rate_of pf m) (dim_x m) me t' x2 ts) as [[xs' xds']|]; cbn [bind] in *; try contradiction; [|exact D].
  destruct D as [D T2]. injection D as -> ->. now split.
Qed.
(** integrating the object = integrating its vector field from its start *)
Lemma integrate_same me m ts m1 x xd : m_start pf m None = Ok (m1, x, xd) -> rate_of pf m x = Ok xd ->
  same_as m (m_integrate pf me m ts) (integrate (rate_of pf m) (dim_x m) me x ts).
Proof.
  intros E Ex. unfold m_integrate, integrate, integrate_start. rewrite E, Ex. cbn [bind]. destruct ts as [|t ts]; [reflexivity|].
  pose proof (loop_same me m ts m1 t x (start_touch pf m m1 x xd E)) as D. unfold same_as in D.
  destruct (m_loop pf me m1 t x ts) as [[m3 [xs xds]]|], (int_loop (rate_of pf m) (dim_x m) me t x ts) as [[xs' xds']|]; cbn [bind] in *; try contradiction; [|exact D].
  destruct D as [D T2]. injection D as -> ->. now split.
Qed.
End S.
