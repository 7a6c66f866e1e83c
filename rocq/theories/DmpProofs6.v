(** Proofs about DMPs: training targets. *)
From Coq Require Import String.
From Verif Require Import Base BaseLemmas DynModel DynSpec DynProofs ParamModel TrajModel DmpModel DmpSpec DmpProofs DmpProofs2 DmpProofs3 DmpProofs4 DmpProofs5.
Open Scope R_scope.

Lemma mapM_map {A B C} (f : B -> res C) (g : A -> B) l : mapM f (map g l) = mapM (fun x => f (g x)) l.
Proof. induction l as [|x l IH]; cbn; [reflexivity|]. destruct (f (g x)); cbn; [|reflexivity]. now rewrite IH. Qed.
Lemma mapM_nth {A B} (f : A -> res B) l ys : mapM f l = Ok ys -> forall k da db, (k < length l)%nat ->
  f (nth k l da) = Ok (nth k ys db).
Proof.
  rewrite mapM_ok_iff. intros H. induction H as [|x z l ys E H IH]; intros k da db Hk; cbn in Hk; [lia|].
  destruct k as [|k]; [exact E|]. apply IH. lia.
Qed.
Lemma pop_par f p n a : par_ok p n -> length a = n ->
  pop f p a = Ok (map (fun i => f (par_val p i) (nth i a 0)) (seq 0 n)).
Proof. intros Hp Ha. now apply pop_seq. Qed.
Lemma full_ok n p : par_ok p n -> full n p = Ok (map (par_val p) (seq 0 n)).
Proof.
  unfold full. destruct p as [r|l]; cbn; intros H.
  - now rewrite map_const_seq.
  - rewrite fit_same by exact H. f_equal. rewrite <- H. apply list_eq_map_nth.
Qed.
Lemma existsb_zero l : (existsb (fun c => if Req_EM_T c 0 then true else false) l = false) <-> (forall x, In x l -> x <> 0).
Proof.
  induction l as [|c l IH]; cbn; [split; [intros _ x []|reflexivity]|].
  rewrite Bool.orb_false_iff, IH. destruct (Req_EM_T c 0) as [E|E]; split.
  - intros [H _]; discriminate.
  - intros H. exfalso. now apply (H c); [left|].
  - intros [_ H] x [<-|Hx]; auto.
  - intros H; split; [reflexivity|]. intros x Hx. apply H. now right.
Qed.
Lemma div_row_ok n a b : length a = n -> length b = n -> (forall i, (i < n)%nat -> nth i b 0 <> 0) ->
  div_row a b = Ok (map (fun i => nth i a 0 / nth i b 0) (seq 0 n)).
Proof.
  intros Ha Hb Hnz. unfold div_row. rewrite (proj2 (existsb_zero b)); [now apply vop_seq|].
  intros x Hx. destruct (In_nth _ _ 0 Hx) as (i & Hi & <-). apply Hnz. lia.
Qed.
Lemma div_row_nz n a b r : length b = n -> div_row a b = Ok r -> forall i, (i < n)%nat -> nth i b 0 <> 0.
Proof.
  intros Hb. unfold div_row. destruct (existsb _ b) eqn:E; [discriminate|]. intros _ i Hi.
  apply (proj1 (existsb_zero b) E). apply nth_In. lia.
Qed.

Section T.
Variable pf : nat -> list (string * pval) -> R -> res R.
Variable m : dmp.
Variables G Gd P Pd A Ad D Dd C Cd : R -> list R.
Hypothesis W : wf pf m.
Hypothesis Q : parts m G Gd P Pd A Ad D Dd C Cd.
Variable t : traj.
Hypothesis Dm : demo (m_dim m) t.
Let n := m_dim m.
Let y k i := at_ (mrows (tj_ys t)) k i.
Let yd k i := at_ (mrows (tj_yds t)) k i.
Let ydd k i := at_ (mrows (tj_ydds t)) k i.
Definition time k := nth k (tj_ts t) 0.

(** the target formula *)
Definition ftarget k i : R :=
  (m_tau m * m_tau m * ydd k i +
   (par_val (d_spring (m_spring m)) i * (y k i - target m (nth i (G (time k)) 0) i)
    + nth i (C (time k)) 0 * (m_tau m * yd k i)) / par_val (d_mass (m_spring m)) i)
  / nth 0 (A (time k)) 0 / factor m i.

Lemma row_of (M : mat) k : length (mrows M) = length (tj_ts t) /\ Forall (fun r => length r = n) (mrows M) /\ mcols M = n ->
  (k < length (tj_ts t))%nat -> exists r, nth_res (mrows M) k = Ok r /\ length r = n /\ forall i, nth i r 0 = at_ (mrows M) k i.
Proof.
  intros (H1 & H2 & _) Hk. rewrite (nth_res_ok _ _ []) by lia. eexists. split; [reflexivity|]. split; [|reflexivity].
  rewrite Forall_forall in H2. apply H2, nth_In. lia.
Qed.

(** the rows of the targets, without reference to the function approximators *)
Definition tbody (k : nat) : res (list R) :=
  let* y := nth_res (mrows (tj_ys t)) k in
  let* yd := nth_res (mrows (tj_yds t)) k in
  let* ydd := nth_res (mrows (tj_ydds t)) k in
  let* g := nth_res (map (fun s => tgt m G s) (tj_ts t)) k in
  let* ga := nth_res (map (fun s => nth 0 (A s) 0) (tj_ts t)) k in
  let* dr := nth_res (map C (tj_ts t)) k in
  let* e := vop Rminus y g in
  let* ke := pop Rmult (d_spring (m_spring m)) e in
  let* de := pop Rmult (match m_damping m with Some _ => PVec dr | None => d_damp (m_spring m) end)
                       (map (Rmult (m_tau m)) yd) in
  let* s := vop Rplus ke de in
  let* mass := full (length s) (d_mass (m_spring m)) in
  let* sm := div_row s mass in
  let* f := vop Rplus (map (Rmult (m_tau m * m_tau m)) ydd) sm in
  if Req_EM_T ga 0 then Err NonFinite else
  div_row (map (fun v => v / ga) f) (map (factor m) (seq 0 n)).

Lemma targets_form : tj_ts t <> [] -> targets pf m t =
  (let* rows := mapM tbody (seq 0 (length (tj_ts t))) in Ok (map (fun s => nth 0 (P s) 0) (tj_ts t), rows)).
Proof.
  intros Hne. unfold targets. destruct Dm as (Dd' & DY & DV & DA). rewrite Dd', Nat.eqb_refl. fold n.
  pose proof (goal_dim pf m W) as GD.
  destruct (tj_ts t) as [|t0 ts] eqn:ET; [congruence|]. rewrite <- ET in *.
  assert (Hana := ana_eq pf m G Gd P Pd A Ad D Dd C Cd W Q false t0 ts).
  rewrite <- ET in Hana. rewrite Hana. clear Hana. cbn [bind a_xs].
  set (L := (t0, d_init (m_spring m)) :: states pf m G P A C false t0 (d_init (m_spring m)) ts).
  assert (HL : forall p, In p L -> same_layout n (snd p) (G (fst p)) (P (fst p)) (A (fst p)) (C (fst p))).
  { intros p Hp. apply (xr_layout m G Gd P Pd A Ad D Dd C Cd Q). destruct (In_nth _ _ (0, []) Hp) as (k & Hk & <-).
    apply (L_len pf m G P A C W false t0 ts). unfold L in Hk. rewrite (L_length pf m G P A C false t0 ts) in Hk. exact Hk. }
  assert (HT : map fst L = tj_ts t) by (unfold L; cbn [map fst]; now rewrite states_times).
  rewrite !mapM_map.
  rewrite (mapM_pure _ (fun p => tgt m G (fst p))).
  2:{ intros p Hp. unfold xrow. rewrite (get_goal m GD) by now apply HL. cbn [bind].
      apply (scale_tgt pf m G Gd P Pd A Ad D Dd C Cd W Q). }
  cbn [bind]. rewrite (mapM_pure _ (fun p => nth 0 (A (fst p)) 0)).
  2:{ intros p Hp. unfold xrow. rewrite (get_gating m GD) by now apply HL. cbn [bind]. apply one_ok, Q. }
  cbn [bind]. rewrite (mapM_pure _ (fun p => nth 0 (P (fst p)) 0)).
  2:{ intros p Hp. unfold xrow. rewrite (get_phase m GD) by now apply HL. cbn [bind]. apply one_ok, Q. }
  cbn [bind]. rewrite (mapM_pure _ (fun p => C (fst p))).
  2:{ intros p Hp. unfold xrow. rewrite (get_damping m GD) by now apply HL. reflexivity. }
  cbn [bind]. rewrite (factors_ok pf m W). cbn [bind].
  rewrite <- (map_map fst (fun s => tgt m G s)), <- (map_map fst (fun s => nth 0 (A s) 0)), <- (map_map fst (fun s => nth 0 (P s) 0)), <- (map_map fst C), HT.
  reflexivity.
Qed.

Lemma targets_ok phs rows : tj_ts t <> [] -> targets pf m t = Ok (phs, rows) ->
  phs = map (fun s => nth 0 (P s) 0) (tj_ts t) /\ length rows = length (tj_ts t) /\
  forall k, (k < length (tj_ts t))%nat -> length (nth k rows []) = n /\ nth 0 (A (time k)) 0 <> 0 /\
    forall i, (i < n)%nat -> factor m i <> 0 /\ at_ rows k i = ftarget k i.
Proof.
  intros Hne. rewrite (targets_form Hne). destruct Dm as (Dd' & DY & DV & DA).
  set (body := tbody).
  destruct (mapM body (seq 0 (length (tj_ts t)))) as [rs|e] eqn:EM; cbn [bind]; [|discriminate].
  intros E; injection E as <- <-. split; [reflexivity|].
  pose proof (mapM_ok_length _ _ _ EM) as Hlen. rewrite seq_length in Hlen. split; [exact Hlen|].
  intros k Hk.
  assert (Hb : body k = Ok (nth k rs [])).
  { pose proof (mapM_nth body _ _ EM k 0%nat [] ltac:(now rewrite seq_length)) as H. rewrite seq_nth in H by trivial. exact H. }
  unfold body, tbody in Hb.
  destruct (row_of (tj_ys t) k DY Hk) as (ry & Ey & Ly & Ny). rewrite Ey in Hb. cbn [bind] in Hb.
  destruct (row_of (tj_yds t) k DV Hk) as (rv & Ev & Lv & Nv). rewrite Ev in Hb. cbn [bind] in Hb.
  destruct (row_of (tj_ydds t) k DA Hk) as (ra & Ea & La & Na). rewrite Ea in Hb. cbn [bind] in Hb.
  rewrite (nth_res_ok _ _ []) in Hb by now rewrite map_length. cbn [bind] in Hb.
  rewrite (nth_res_ok _ _ 0) in Hb by now rewrite map_length. cbn [bind] in Hb.
  rewrite (nth_res_ok _ _ []) in Hb by now rewrite map_length. cbn [bind] in Hb.
  rewrite !(nth_map_l _ (tj_ts t) k 0) in Hb by trivial. fold (time k) in Hb.
  rewrite (vop_seq _ _ _ n) in Hb by (trivial; apply tgt_length). cbn [bind] in Hb.
  rewrite (pop_par _ _ n) in Hb by (first [now rewrite map_length, seq_length | apply W]). cbn [bind] in Hb.
  assert (PD : exists p, match m_damping m with Some _ => PVec (C (time k)) | None => d_damp (m_spring m) end = p /\ par_ok p n /\
      forall i, (i < n)%nat -> par_val p i = nth i (C (time k)) 0).
  { eexists. split; [reflexivity|]. pose proof (pt_c _ _ _ _ _ _ _ _ _ _ _ Q) as Qc. destruct (m_damping m).
    - split; [exact (C_len m _ _ _ _ _ _ _ _ _ _ Q (time k))|reflexivity].
    - split; [apply W|]. intros i Hi. now rewrite (proj1 Qc). }
  destruct PD as (p & Ep & Hp & Hpv). rewrite Ep in Hb.
  rewrite (pop_par _ _ n) in Hb by (first [exact Hp | now rewrite map_length]). cbn [bind] in Hb.
  rewrite (vop_seq _ _ _ n) in Hb by now rewrite map_length, seq_length. cbn [bind] in Hb.
  rewrite map_length, seq_length in Hb. rewrite full_ok in Hb by apply W. cbn [bind] in Hb.
  rewrite (div_row_ok n) in Hb.
  2,3: now rewrite map_length, seq_length.
  2:{ intros i Hi. rewrite nth_map_seq by trivial. now apply W. }
  cbn [bind] in Hb. rewrite (vop_seq _ _ _ n) in Hb by (rewrite ?map_length, ?seq_length; trivial). cbn [bind] in Hb.
  destruct (Req_EM_T (nth 0 (A (time k)) 0) 0) as [|Hga]; [discriminate|].
  assert (Hfac : forall i, (i < n)%nat -> factor m i <> 0).
  { intros i Hi. pose proof (fun L => div_row_nz n _ _ _ L Hb i Hi) as H. rewrite nth_map_seq in H by trivial. apply H.
    now rewrite map_length, seq_length. }
  rewrite (div_row_ok n) in Hb.
  2,3: now rewrite ?map_length, seq_length.
  2:{ intros i Hi. rewrite nth_map_seq by trivial. now apply Hfac. }
  apply (f_equal (fun x => match x with Ok z => z | Err _ => [] end)) in Hb. cbv beta iota in Hb. unfold at_. rewrite <- Hb.
  split; [now rewrite map_length, seq_length|]. split; [exact Hga|]. intros i Hi. split; [now apply Hfac|].
  rewrite nth_map_seq by trivial. rewrite (nth_map_seq (factor m)) by trivial.
  rewrite (nth_map_l _ _ _ 0) by now rewrite map_length, seq_length.
  rewrite !nth_map_seq by trivial.
  rewrite !(nth_map_l (Rmult _) _ _ 0) by lia. rewrite Ny, Nv, Na, Hpv by trivial.
  unfold ftarget, tgt. fold n. rewrite nth_map_seq by trivial. reflexivity.
Qed.
End T.
