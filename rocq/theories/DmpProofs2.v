(** Proofs about DMPs: analytical_solution computes a rollout. *)
From Coq Require Import String.
From Verif Require Import Base BaseLemmas DynModel DynSpec DynProofs ParamModel TrajModel DmpModel DmpSpec DmpProofs.
Open Scope R_scope.

Lemma map2_map {A B C D} (f : B -> C -> D) (g : A -> B) (h : A -> C) l :
  map2 f (map g l) (map h l) = map (fun x => f (g x) (h x)) l.
Proof. induction l; cbn; congruence. Qed.
Lemma map_const_seq (c : R) n : repeat c n = map (fun _ => c) (seq 0 n).
Proof. rewrite <- (seq_length n 0) at 1. induction (seq 0 n); cbn; congruence. Qed.
Lemma nth_repeat_lt (c d : R) n i : (i < n)%nat -> nth i (repeat c n) d = c.
Proof. intros H. rewrite map_const_seq. now rewrite nth_map_seq. Qed.
Lemma vop_seq f a b n : length a = n -> length b = n ->
  vop f a b = Ok (map (fun i => f (nth i a 0) (nth i b 0)) (seq 0 n)).
Proof. intros A B. rewrite vop_same by lia. f_equal. now apply map2_seq. Qed.
Lemma one_ok x : length x = 1%nat -> one x = Ok (nth 0 x 0).
Proof. destruct x as [|a [|b l]]; cbn; intros H; try lia. reflexivity. Qed.
Lemma mapM_one {A} (X : A -> list R) ts : (forall t, length (X t) = 1%nat) ->
  mapM one (map X ts) = Ok (map (fun t => nth 0 (X t) 0) ts).
Proof. intros H. induction ts as [|t ts IH]; cbn [map mapM]; [reflexivity|]. now rewrite one_ok, IH by trivial. Qed.
Lemma drives_map ts (g d f : R -> list R) :
  drives ts (map g ts) (map d ts) (map f ts) = map (fun t => Drive t (g t) (d t) (f t)) ts.
Proof. induction ts as [|t ts IH]; cbn; [reflexivity|]. now rewrite IH. Qed.
Lemma rows5_map {A} m (a b c d e f : A -> list R) l :
  (forall x, In x l -> row m (a x) (b x) (c x) (d x) (e x) = Ok (f x)) ->
  rows5 m (map a l) (map b l) (map c l) (map d l) (map e l) = Ok (map f l).
Proof.
  induction l as [|x l IH]; intros H; cbn [map rows5]; [reflexivity|].
  rewrite H by now left. cbn [bind]. rewrite IH by (intros; apply H; now right). reflexivity.
Qed.
Lemma fit_param n v w : fit n v = Ok w ->
  let p := match v with [r] => PScal r | l => PVec l end in
  par_ok p n /\ forall i, (i < n)%nat -> par_val p i = nth i w 0.
Proof.
  unfold fit. destruct (Nat.eqb_spec (length v) n) as [E|E].
  - intros H; injection H as <-. destruct v as [|r [|s v]]; cbn in *; split; trivial.
    intros [|i] Hi; [reflexivity|lia].
  - destruct v as [|r [|s v]]; try discriminate. intros H; injection H as <-. cbn. split; trivial.
    intros i Hi. now rewrite nth_repeat_lt.
Qed.
Lemma firstn_len {A} n (a b : list A) : length a = n -> firstn n (a ++ b) = a.
Proof. intros <-. rewrite firstn_app, firstn_all, Nat.sub_diag. apply app_nil_r. Qed.
Lemma skipn_len {A} n (a b : list A) : length a = n -> skipn n (a ++ b) = b.
Proof. intros <-. rewrite skipn_app, skipn_all, Nat.sub_diag. reflexivity. Qed.
Lemma app_halves n (x : list R) : length x = (2 * n)%nat ->
  x = (firstn n x ++ skipn n x)%list /\ length (firstn n x) = n /\ length (skipn n x) = n /\
  (forall i, (i < n)%nat -> nth i (firstn n x) 0 = nth i x 0) /\
  (forall i, nth i (skipn n x) 0 = nth (n + i) x 0).
Proof.
  intros H. repeat split.
  - now rewrite firstn_skipn.
  - rewrite firstn_length. lia.
  - rewrite skipn_length. lia.
  - intros i Hi. rewrite <- (firstn_skipn n x) at 2. rewrite app_nth1; [reflexivity|]. rewrite firstn_length. lia.
  - intros i. rewrite <- (firstn_skipn n x) at 2. rewrite app_nth2; rewrite firstn_length; [f_equal; lia|lia].
Qed.

Section Rollout.
Variable predict_fn : nat -> list (string * pval) -> R -> res R.
Variable m : dmp.
Hypothesis Hwf : wf predict_fn m.
Let n := m_dim m.

Lemma goal_dim : d_goal m = n.
Proof.
  destruct Hwf as (_ & _ & _ & _ & _ & _ & _ & _ & _ & _ & _ & _ & Hg & _).
  unfold d_goal, n. destruct (m_goal m); [apply Hg|reflexivity].
Qed.
Lemma predictions_ok ph : predictions predict_fn m ph = Ok (map (pred_val predict_fn m ph) (seq 0 n)).
Proof.
  destruct Hwf as (_ & _ & _ & _ & _ & _ & _ & _ & _ & _ & _ & _ & _ & _ & _ & _ & _ & _ & Hf).
  unfold predictions, pred_val, fas_ok, fas_of, pdmp_of in Hf |- *. cbn [p_fas] in Hf |- *. change (m_dim m) with n.
  destruct (m_fas m) as [fs|] eqn:E.
  2:{ f_equal. rewrite map_const_seq. apply map_ext. intros i. now destruct i. }
  destruct Hf as [Hl Hp]. destruct fs as [|f0 fs].
  { f_equal. rewrite map_const_seq. apply map_ext. intros i. now destruct i. }
  destruct Hl as [Hl|Hl]; [discriminate|].
  apply mapM_pure. intros i Hi. apply in_seq in Hi. unfold nth_res.
  destruct (nth_error (f0 :: fs) i) as [f|] eqn:Ef.
  2:{ apply nth_error_None in Ef. fold n in Hl. lia. }
  cbn [bind]. destruct (is_trained f) eqn:Et; [|reflexivity].
  destruct (Hp i f Ef Et ph) as [v Ev]. now rewrite Ev.
Qed.
Lemma factors_ok e : factors m e = Ok (map (factor m) (seq 0 n)).
Proof.
  destruct Hwf as (_ & Ha & Hy & Hr & Ham & _). unfold factors, factor.
  destruct (m_scaling m) eqn:E.
  - now rewrite map_const_seq.
  - unfold y0_of. destruct (m_y0 m) as [y|] eqn:Ey; [|exfalso; apply Hr; auto].
    cbn [bind]. specialize (Hy y eq_refl). rewrite (vop_seq _ _ _ n) by trivial. cbn [bind].
    rewrite fit_same by now rewrite map_length, seq_length. reflexivity.
  - destruct (Ham eq_refl) as (a & Ea & La). rewrite Ea. rewrite fit_same by trivial. cbn [opt]. f_equal.
    unfold n. rewrite <- La. apply list_eq_map_nth.
Qed.
Lemma scale_goal_ok g : length g = n -> scale_goal m g = Ok (map (fun i => target m (nth i g 0) i) (seq 0 n)).
Proof.
  intros Hg. destruct Hwf as (_ & Ha & Hy & Hr & _). unfold scale_goal, target, y0_of.
  destruct (m_req m).
  - destruct (m_y0 m) as [y|] eqn:Ey; [|exfalso; apply Hr; auto].
    cbn [bind opt]. specialize (Hy y eq_refl). rewrite (vop_seq _ _ _ n) by trivial. cbn [bind].
    rewrite (vop_seq _ _ _ n) by (trivial; now rewrite map_length, seq_length). cbn [bind].
    rewrite (vop_seq _ _ _ n) by (trivial; now rewrite map_length, seq_length). f_equal.
    apply map_ext_in. intros i Hi. apply in_seq in Hi. rewrite !nth_map_seq by lia. reflexivity.
  - f_equal. rewrite <- Hg. apply list_eq_map_nth.
Qed.

(** spring state with parameters *)
Definition accs (x g c f : list R) : list R :=
  (map (fun i => nth (n + i) x 0 / m_tau m) (seq 0 n) ++
   map (fun i => accel m i (nth i x 0) (nth (n + i) x 0) (nth i g 0) (nth i c 0) (nth i f 0)) (seq 0 n))%list.
Lemma accs_length x g c f : length (accs x g c f) = (2 * n)%nat.
Proof. unfold accs. rewrite app_length, !map_length, !seq_length. lia. Qed.
Lemma nth_accs x g c f i : (i < n)%nat ->
  nth i (accs x g c f) 0 = nth (n + i) x 0 / m_tau m /\
  nth (n + i) (accs x g c f) 0 = accel m i (nth i x 0) (nth (n + i) x 0) (nth i g 0) (nth i c 0) (nth i f 0).
Proof.
  intros Hi. unfold accs. split.
  - rewrite app_nth1 by (rewrite map_length, seq_length; lia). now rewrite nth_map_seq.
  - rewrite app_nth2 by (rewrite map_length, seq_length; lia). rewrite map_length, seq_length.
    replace (n + i - n)%nat with i by lia. now rewrite nth_map_seq.
Qed.
Lemma spring_diffeq sp x g p c : d_set_attr (m_spring m) g = Ok sp -> length x = (2 * n)%nat -> length g = n ->
  par_ok p n -> (forall i, (i < n)%nat -> par_val p i = nth i c 0) ->
  exists xd, d_diffeq (d_set_damp sp p) x = Ok xd /\
    forall f, length f = n -> add_forcing (m_tau m) n f xd = Ok (accs x g c f).
Proof.
  intros E Hx Hg Hp Hv.
  destruct Hwf as (Ht & _ & _ & _ & _ & Hdim & Htau & _ & _ & Hk & Hm & HM & _).
  unfold d_set_attr in E. rewrite Hdim in E. fold n in E. rewrite Hg, Nat.eqb_refl in E. injection E as <-.
  destruct (app_halves n x Hx) as (Ex & L1 & L2 & N1 & N2).
  eexists. split.
  - rewrite Ex at 1. apply d_diffeq_form; cbn [d_set_damp d_tau d_attr d_dimy d_damp d_spring d_mass];
    rewrite ?Hdim, ?Htau; fold n; trivial.
  - intros f Hf. unfold add_forcing. destruct (Req_EM_T (m_tau m) 0); [contradiction|].
    cbn [d_set_damp d_tau d_attr d_dimy d_damp d_spring d_mass]. rewrite ?Hdim, ?Htau. fold n.
    rewrite firstn_len, skipn_len by now rewrite map_length.
    f_equal. unfold accs. f_equal.
    + rewrite (map_seq_of _ _ n) by trivial. apply map_ext. intros i. now rewrite N2.
    + rewrite (map2_seq _ _ _ n) by (trivial; now rewrite map_length, seq_length).
      apply map_ext_in. intros i Hi. apply in_seq in Hi. rewrite nth_map_seq by lia. unfold accel.
      rewrite N1, N2, Hv by lia. reflexivity.
Qed.
Lemma spring_at_ok g p c x f : length g = n -> par_ok p n -> (forall i, (i < n)%nat -> par_val p i = nth i c 0) ->
  length x = (2 * n)%nat -> length f = n -> spring_at m (m_spring m) g p x f = Ok (accs x g c f).
Proof.
  intros Hg Hp Hv Hx Hf. unfold spring_at. destruct (d_set_attr (m_spring m) g) as [sp|e] eqn:E.
  - cbn [bind]. destruct (spring_diffeq sp x g p c E Hx Hg Hp Hv) as (xd & Ed & Ef). rewrite Ed. cbn [bind]. now apply Ef.
  - exfalso. destruct Hwf as (_ & _ & _ & _ & _ & Hdim & _). unfold d_set_attr in E. rewrite Hdim in E. fold n in E.
    rewrite Hg, Nat.eqb_refl in E. discriminate.
Qed.

Variables G Gd P Pd A Ad D Dd C : R -> list R.
Variable suppress : bool.
Hypothesis HG : forall t, length (G t) = n.
Hypothesis HGd : forall t, length (Gd t) = n.
Hypothesis HP : forall t, length (P t) = 1%nat.
Hypothesis HPd : forall t, length (Pd t) = 1%nat.
Hypothesis HA : forall t, length (A t) = 1%nat.
Hypothesis HAd : forall t, length (Ad t) = 1%nat.
Hypothesis HD : forall t, fit n (D t) = Ok (C t).
Variable Cd : R -> list R.
Hypothesis HDd : forall t, fit n (Dd t) = Ok (Cd t).

Definition fav t i := if suppress then 0 else pred_val predict_fn m (nth 0 (P t) 0) i.
Definition fo t i := fav t i * nth 0 (A t) 0 * factor m i.
Definition fol t := map (fo t) (seq 0 n).
Definition tgt t := map (fun i => target m (nth i (G t) 0) i) (seq 0 n).
Definition rate t x := accs x (tgt t) (C t) (fol t).
Definition next t t' x := map (fun i => nth i x 0 + (t' - t) * nth i (rate t x) 0) (seq 0 (2 * n)).
Fixpoint states t x ts : list (R * list R) :=
  match ts with [] => [] | t' :: ts' => let x' := next t t' x in (t', x') :: states t' x' ts' end.
Definition drv t := Drive t (G t) (D t) (fol t).

Lemma next_length t t' x : length (next t t' x) = (2 * n)%nat.
Proof. unfold next. now rewrite map_length, seq_length. Qed.
Lemma rate_length t x : length (rate t x) = (2 * n)%nat.
Proof. apply accs_length. Qed.
Lemma tgt_length t : length (tgt t) = n. Proof. unfold tgt. now rewrite map_length, seq_length. Qed.
Lemma fol_length t : length (fol t) = n. Proof. unfold fol. now rewrite map_length, seq_length. Qed.

Lemma spring_loop_ok ts : forall t x, length x = (2 * n)%nat ->
  spring_loop m (m_spring m) t x (rate t x) (map drv ts) =
  Ok (map (fun p => (snd p, rate (fst p) (snd p))) (states t x ts)).
Proof.
  induction ts as [|t' ts IH]; intros t x Hx; cbn [map spring_loop states]; [reflexivity|].
  rewrite (vop_seq _ _ _ (2 * n)) by (trivial; rewrite map_length; apply rate_length). cbn [bind].
  change (v_goal (drv t')) with (G t'). change (v_damp (drv t')) with (D t'). change (v_t (drv t')) with t'. change (v_forcing (drv t')) with (fol t').
  rewrite scale_goal_ok by trivial. cbn [bind]. fold (tgt t').
  fold n. rewrite HD. cbn [bind].
  pose proof (fit_length _ _ _ (HD t')) as LC.
  replace (map (fun i => nth i x 0 + nth i (map (Rmult (t' - t)) (rate t x)) 0) (seq 0 (2 * n))) with (next t t' x).
  2:{ unfold next. apply map_ext_in. intros i Hi. apply in_seq in Hi. f_equal.
      rewrite (nth_map_lt _ _ _ 0) by (rewrite rate_length; lia). reflexivity. }
  rewrite (spring_at_ok _ _ (C t')); try apply fol_length; try apply tgt_length; try apply next_length; trivial.
  cbn [bind]. fold (rate t' (next t t' x)).
  rewrite vdiv_ok by apply Hwf. cbn [bind].
  assert (E : (map (fun v => v / m_tau m) (skipn n (next t t' x)) ++ skipn n (rate t' (next t t' x)))%list = rate t' (next t t' x)).
  { unfold rate at 1, accs. set (a := map (fun i => nth (n + i) (next t t' x) 0 / m_tau m) (seq 0 n)).
    assert (La : length a = n) by (unfold a; now rewrite map_length, seq_length).
    rewrite skipn_len by trivial.
    unfold rate, accs. fold a. f_equal. unfold a.
    destruct (app_halves n _ (next_length t t' x)) as (_ & _ & L2 & _ & N2).
    rewrite (map_seq_of _ _ n) by trivial. apply map_ext. intros i. now rewrite N2. }
  rewrite E. rewrite IH by apply next_length. reflexivity.
Qed.

Lemma spring_rows_ok t ts : spring_rows m (map drv (t :: ts)) =
  Ok (map (fun p => (snd p, rate (fst p) (snd p))) ((t, d_init (m_spring m)) :: states t (d_init (m_spring m)) ts)).
Proof.
  assert (Hx : length (d_init (m_spring m)) = (2 * n)%nat) by apply Hwf.
  cbn [map spring_rows].
  change (v_goal (drv t)) with (G t). change (v_damp (drv t)) with (D t). change (v_t (drv t)) with t. change (v_forcing (drv t)) with (fol t).
  rewrite scale_goal_ok by trivial. cbn [bind]. fold (tgt t).
  destruct (fit_param n (D t) (C t) (HD t)) as [Q1 Q2].
  rewrite (spring_at_ok _ _ (C t)); [|apply tgt_length|destruct (D t) as [|? [|? ?]]; exact Q1|destruct (D t) as [|? [|? ?]]; exact Q2|exact Hx|apply fol_length].
  cbn [bind]. fold (rate t (d_init (m_spring m))).
  rewrite spring_loop_ok by trivial. reflexivity.
Qed.

Lemma states_times ts : forall t x, map fst (states t x ts) = ts.
Proof. induction ts as [|t' ts IH]; intros; cbn; [reflexivity|]. now rewrite IH. Qed.
Lemma states_len ts : forall t x, Forall (fun p => length (snd p) = (2 * n)%nat) (states t x ts).
Proof. induction ts as [|t' ts IH]; intros; cbn [states]; constructor; [apply next_length|apply IH]. Qed.
Lemma states_step ts : forall t x k, (k < length ts)%nat ->
  let L := (t, x) :: states t x ts in
  snd (nth (S k) L (0, [])) = next (nth k (t :: ts) 0) (nth (S k) (t :: ts) 0) (snd (nth k L (0, []))).
Proof.
  induction ts as [|t' ts IH]; intros t x k Hk; cbn in Hk; [lia|]. cbv zeta.
  destruct k as [|k]; [reflexivity|]. cbn [states]. cbv zeta.
  specialize (IH t' (next t t' x) k ltac:(lia)). exact IH.
Qed.

Hypothesis EP : forall ts, sub_ana (m_phase m) ts = Ok (map P ts, map Pd ts).
Hypothesis EA : forall ts, sub_ana (m_gating m) ts = Ok (map A ts, map Ad ts).
Hypothesis EG : forall ts,
  match m_goal m with
  | None => Ok (map (fun _ => m_attr m) ts, map (fun _ => repeat 0 (length (m_attr m))) ts)
  | Some g => sub_ana g ts
  end = Ok (map G ts, map Gd ts).
Hypothesis ED : forall ts,
  match m_damping m with
  | None => let p := damp_row (d_damp (m_spring m)) in
            Ok (map (fun _ => p) ts, map (fun _ => repeat 0 (length p)) ts)
  | Some ds => sub_ana ds ts
  end = Ok (map D ts, map Dd ts).

Definition xrow (p : R * list R) := asm (snd p) (G (fst p)) (P (fst p)) (A (fst p)) (C (fst p)).
Definition xdrow (p : R * list R) :=
  asm (rate (fst p) (snd p)) (Gd (fst p)) (Pd (fst p)) (Ad (fst p)) (Cd (fst p)).

Lemma ana_ok t ts : ana predict_fn m (t :: ts) suppress =
  let L := (t, d_init (m_spring m)) :: states t (d_init (m_spring m)) ts in
  Ok (Ana (map xrow L) (map xdrow L) (map fol (t :: ts)) (map (fun t => map (fav t) (seq 0 n)) (t :: ts))).
Proof.
  cbv zeta. set (T := t :: ts). unfold ana. rewrite EP. cbn [bind]. rewrite EA. cbn [bind].
  rewrite mapM_one by trivial. cbn [bind]. rewrite mapM_one by trivial. cbn [bind].
  rewrite (mapM_pure _ (fun ph => map (pred_val predict_fn m ph) (seq 0 n))) by (intros; apply predictions_ok).
  cbn [bind]. rewrite (map_map (fun t => nth 0 (P t) 0) (fun ph => map (pred_val predict_fn m ph) (seq 0 n)) T). cbv zeta.
  assert (EF : (if suppress then map (fun _ => repeat 0 (m_dim m)) (map (fun x => map (pred_val predict_fn m (nth 0 (P x) 0)) (seq 0 n)) T)
               else map (fun x => map (pred_val predict_fn m (nth 0 (P x) 0)) (seq 0 n)) T)
              = map (fun t => map (fav t) (seq 0 n)) T).
  { unfold fav. destruct suppress; [|reflexivity]. rewrite map_map. apply map_ext. intros x. fold n. apply map_const_seq. }
  rewrite EF. rewrite factors_ok. cbn [bind]. rewrite map2_map.
  assert (Efo : map (fun x => forcing (map (factor m) (seq 0 n)) (map (fav x) (seq 0 n)) (nth 0 (A x) 0)) T = map fol T).
  { apply map_ext. intros x. unfold forcing. rewrite map2_map. reflexivity. }
  rewrite Efo. rewrite EG. cbn [bind]. rewrite ED. cbn [bind]. rewrite drives_map.
  change (map (fun t0 => Drive t0 (G t0) (D t0) (fol t0)) T) with (map drv T). unfold T at 1. rewrite spring_rows_ok.
  cbn [bind]. set (L := (t, d_init (m_spring m)) :: states t (d_init (m_spring m)) ts).
  assert (ET : T = map fst L) by (unfold L, T; cbn [map fst]; now rewrite states_times).
  assert (HL : forall p, In p L -> length (snd p) = (2 * n)%nat).
  { intros p [<-|Hp]; [apply Hwf|]. pose proof (states_len ts t (d_init (m_spring m))) as F. rewrite Forall_forall in F. auto. }
  rewrite !map_map. cbn [fst snd].
  rewrite ET. rewrite !map_map.
  rewrite (rows5_map m (fun x => snd x) (fun x => G (fst x)) (fun x => P (fst x)) (fun x => A (fst x)) (fun x => D (fst x)) xrow)
    by (intros p Hp; apply row_ok; [apply goal_dim|apply HL, Hp|apply HG|apply HP|apply HA|apply HD]).
  cbn [bind].
  rewrite (rows5_map m (fun x => rate (fst x) (snd x)) (fun x => Gd (fst x)) (fun x => Pd (fst x)) (fun x => Ad (fst x)) (fun x => Dd (fst x)) xdrow)
    by (intros p Hp; apply row_ok; [apply goal_dim|apply rate_length|apply HGd|apply HPd|apply HAd|apply HDd]).
  reflexivity.
Qed.
End Rollout.
