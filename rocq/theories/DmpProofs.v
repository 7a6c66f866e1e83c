(** Proofs about DMPs: layout of the state, subsystems, and what analytical_solution computes. *)
From Coq Require Import String.
From Verif Require Import Base BaseLemmas DynModel DynSpec DynProofs DynProofs2 DynProofs5 DynProofs6 DynProofs7 ParamModel TrajModel DmpModel DmpSpec.
Open Scope R_scope.

(** ** index arrays *)
Lemma get_ix_mid a b c o l : length a = o -> length b = l -> get_ix (o, l) (a ++ b ++ c)%list = Ok b.
Proof.
  intros <- <-. unfold get_ix. cbn [fst snd].
  destruct (Nat.leb_spec (length a + length b) (length (a ++ b ++ c))) as [H|H].
  - rewrite skipn_app, skipn_all, Nat.sub_diag. cbn [skipn app].
    rewrite firstn_app, firstn_all, Nat.sub_diag. cbn [firstn]. now rewrite app_nil_r.
  - rewrite !app_length in H. lia.
Qed.
Lemma fit_same n v : length v = n -> fit n v = Ok v.
Proof. intros <-. unfold fit. now rewrite Nat.eqb_refl. Qed.
Lemma put_ix_mid a b c v w o l : length a = o -> length b = l -> fit l v = Ok w ->
  put_ix (o, l) v (a ++ b ++ c)%list = Ok (a ++ w ++ c)%list.
Proof.
  intros <- <- F. unfold put_ix. cbn [fst snd].
  destruct (Nat.leb_spec (length a + length b) (length (a ++ b ++ c))) as [H|H].
  - rewrite F. cbn [bind]. f_equal. f_equal; [|f_equal].
    + now rewrite firstn_app, firstn_all, Nat.sub_diag, app_nil_r.
    + rewrite skipn_app, (skipn_all2 a) by lia. cbn [app].
      replace (length a + length b - length a)%nat with (length b) by lia.
      now rewrite skipn_app, skipn_all, Nat.sub_diag.
  - rewrite !app_length in H. lia.
Qed.
Lemma fit_length n v w : fit n v = Ok w -> length w = n.
Proof.
  unfold fit. destruct (Nat.eqb_spec (length v) n); [intros H; now injection H as <-|].
  destruct v as [|a [|b v]]; try discriminate. intros H; injection H as <-. apply repeat_length.
Qed.

Definition asm (sp g p a c : list R) : list R := (sp ++ g ++ p ++ a ++ c)%list.
Definition same_layout (n : nat) (sp g p a c : list R) : Prop :=
  length sp = (2 * n)%nat /\ length g = n /\ length p = 1%nat /\ length a = 1%nat /\ length c = n.

Section Layout.
Variable m : dmp.
Let n := m_dim m.
Hypothesis Hg : d_goal m = n.

Ltac off := unfold ix_spring, ix_goal, ix_phase, ix_gating, ix_damping, ix_y, ix_z; rewrite ?Hg; fold n.
Lemma asm_zero : repeat 0 (dim_x m) = asm (repeat 0 (2 * n)) (repeat 0 n) [0] [0] (repeat 0 n).
Proof.
  unfold asm, dim_x. fold n. change [0] with (repeat 0 1) at 1 2. rewrite <- !repeat_app. f_equal. lia.
Qed.
Lemma asm_length sp g p a c : same_layout n sp g p a c -> length (asm sp g p a c) = dim_x m.
Proof. intros (A & B & C & D & E). unfold asm, dim_x. fold n. rewrite !app_length. lia. Qed.
Lemma get_spring sp g p a c : same_layout n sp g p a c -> get_ix (ix_spring m) (asm sp g p a c) = Ok sp.
Proof. intros (A & B & C & D & E). off. apply (get_ix_mid []); trivial. Qed.
Lemma get_goal sp g p a c : same_layout n sp g p a c -> get_ix (ix_goal m) (asm sp g p a c) = Ok g.
Proof. intros (A & B & C & D & E). off. apply get_ix_mid; trivial; lia. Qed.
Lemma get_phase sp g p a c : same_layout n sp g p a c -> get_ix (ix_phase m) (asm sp g p a c) = Ok p.
Proof.
  intros (A & B & C & D & E). off. unfold asm. rewrite (app_assoc sp). apply get_ix_mid; trivial. rewrite app_length; lia.
Qed.
Lemma get_gating sp g p a c : same_layout n sp g p a c -> get_ix (ix_gating m) (asm sp g p a c) = Ok a.
Proof.
  intros (A & B & C & D & E). off. unfold asm. rewrite (app_assoc sp), (app_assoc (sp ++ g)). apply get_ix_mid; trivial.
  rewrite !app_length; lia.
Qed.
Lemma get_damping sp g p a c : same_layout n sp g p a c -> get_ix (ix_damping m) (asm sp g p a c) = Ok c.
Proof.
  intros (A & B & C & D & E). off. unfold asm. rewrite (app_assoc sp), (app_assoc (sp ++ g)), (app_assoc ((sp ++ g) ++ p)).
  rewrite <- (app_nil_r c) at 1. apply get_ix_mid; trivial. rewrite !app_length; lia.
Qed.
Lemma put_spring v w sp g p a c : same_layout n sp g p a c -> fit (2 * n) v = Ok w ->
  put_ix (ix_spring m) v (asm sp g p a c) = Ok (asm w g p a c).
Proof. intros (A & B & C & D & E) F. off. apply (put_ix_mid []); trivial. Qed.
Lemma put_goal v w sp g p a c : same_layout n sp g p a c -> fit n v = Ok w ->
  put_ix (ix_goal m) v (asm sp g p a c) = Ok (asm sp w p a c).
Proof. intros (A & B & C & D & E) F. off. apply put_ix_mid; trivial; lia. Qed.
Lemma put_phase v w sp g p a c : same_layout n sp g p a c -> fit 1 v = Ok w ->
  put_ix (ix_phase m) v (asm sp g p a c) = Ok (asm sp g w a c).
Proof.
  intros (A & B & C & D & E) F. off. unfold asm. rewrite !(app_assoc sp). apply put_ix_mid; trivial. rewrite app_length; lia.
Qed.
Lemma put_gating v w sp g p a c : same_layout n sp g p a c -> fit 1 v = Ok w ->
  put_ix (ix_gating m) v (asm sp g p a c) = Ok (asm sp g p w c).
Proof.
  intros (A & B & C & D & E) F. off. unfold asm. rewrite !(app_assoc sp), !(app_assoc (sp ++ g)). apply put_ix_mid; trivial.
  rewrite !app_length; lia.
Qed.
Lemma put_damping v w sp g p a c : same_layout n sp g p a c -> fit n v = Ok w ->
  put_ix (ix_damping m) v (asm sp g p a c) = Ok (asm sp g p a w).
Proof.
  intros (A & B & C & D & E) F. off. unfold asm. rewrite !(app_assoc sp), !(app_assoc (sp ++ g)), !(app_assoc ((sp ++ g) ++ p)).
  rewrite <- (app_nil_r c), <- (app_nil_r w). apply put_ix_mid; trivial. rewrite !app_length; lia.
Qed.
Lemma zero_layout : same_layout n (repeat 0 (2 * n)) (repeat 0 n) [0] [0] (repeat 0 n).
Proof. unfold same_layout. rewrite !repeat_length. repeat split. Qed.

Lemma row_ok sp g p a c c' : length sp = (2 * n)%nat -> length g = n -> length p = 1%nat -> length a = 1%nat ->
  fit n c = Ok c' -> row m sp g p a c = Ok (asm sp g p a c').
Proof.
  intros A B C D E. pose proof (fit_length _ _ _ E) as F. unfold row. rewrite asm_zero.
  pose proof zero_layout as (Z1 & Z2 & Z3 & Z4 & Z5).
  rewrite (put_goal g g) by (repeat split; trivial; now apply fit_same). cbn [bind].
  rewrite (put_phase p p) by (repeat split; trivial; now apply fit_same). cbn [bind].
  rewrite (put_gating a a) by (repeat split; trivial; now apply fit_same). cbn [bind].
  rewrite (put_damping c c') by (repeat split; trivial). cbn [bind].
  rewrite (put_spring sp sp) by (repeat split; trivial; now apply fit_same). reflexivity.
Qed.
End Layout.

(** the entries of an assembled row *)
Lemma nth_asm n sp g p a c : same_layout n sp g p a c ->
  (forall i, (i < n)%nat -> nth i (asm sp g p a c) 0 = nth i sp 0) /\
  (forall i, (i < n)%nat -> nth (n + i) (asm sp g p a c) 0 = nth (n + i) sp 0) /\
  (forall i, (i < n)%nat -> nth (2 * n + i) (asm sp g p a c) 0 = nth i g 0) /\
  nth (3 * n) (asm sp g p a c) 0 = nth 0 p 0 /\
  nth (3 * n + 1) (asm sp g p a c) 0 = nth 0 a 0 /\
  (forall i, (i < n)%nat -> nth (3 * n + 2 + i) (asm sp g p a c) 0 = nth i c 0).
Proof.
  intros (A & B & C & D & E). unfold asm. repeat split; intros.
  - apply app_nth1. lia.
  - apply app_nth1. lia.
  - rewrite app_nth2 by lia. rewrite app_nth1 by lia. f_equal. lia.
  - rewrite app_nth2, app_nth2, app_nth1 by lia. f_equal. lia.
  - rewrite app_nth2, app_nth2, app_nth2, app_nth1 by lia. f_equal. lia.
  - rewrite app_nth2, app_nth2, app_nth2, app_nth2 by lia. f_equal. lia.
Qed.

(** ** subsystems *)
Lemma solves_form f an x0 X Xd : solves f an x0 X Xd ->
  (forall ts, an ts = Ok (map X ts, map Xd ts)) /\ X 0 = x0 /\ (forall t, length (X t) = length x0) /\
  (forall t, length (Xd t) = length x0) /\ (forall t, f (X t) = Ok (Xd t)).
Proof. intros (A & B & C & D & E & F). repeat split; trivial. Qed.


Lemma time_solution h : t_tau h <> 0 -> t_init h = [if t_down h then 1 else 0] ->
  exists X Xd, (forall ts, t_ana h ts = Ok (map X ts, map Xd ts)) /\ X 0 = t_init h /\
    (forall t, length (X t) = 1%nat) /\ (forall t, length (Xd t) = 1%nat) /\
    (forall t, t <> t_tau h -> t_diffeq h (X t) = Ok (Xd t)).
Proof.
  intros Ht Hi.
  assert (Eh : h = new_time (t_tau h) (t_down h)) by (destruct h as [a b c]; cbn in *; now rewrite Hi).
  unfold t_ana. destruct (Req_EM_T (t_tau h) 0) as [E|_]; [contradiction|].
  eexists _, _. split; [intros ts; reflexivity|]. cbn beta. repeat split.
  - rewrite Hi. unfold Rdiv. rewrite Rmult_0_l. destruct (t_down h); rewrite ?Rminus_0_r;
    match goal with |- context [Rlt_dec ?a ?b] => destruct (Rlt_dec a b) end; trivial; lra.
  - intros t Hne. destruct (time_spec (t_tau h) (t_down h) [t] Ht) as (xs & xds & E & L1 & L2 & H).
    rewrite <- Eh in E.
    destruct xs as [|x [|? ?]]; cbn in L1; try lia. destruct xds as [|xd [|? ?]]; cbn in L2; try lia.
    specialize (H 0%nat ltac:(cbn; lia)). destruct H as [_ H]. specialize (H Hne). rewrite <- Eh in H. cbn [nth] in H. unfold t_ana in E. destruct (Req_EM_T (t_tau h) 0) as [?|_]; [contradiction|].
    cbn in E. injection E as E1 E2. cbn beta. rewrite E1, E2. exact H.
Qed.

Lemma sub_solution s : sub_ok s -> exists X Xd,
  (forall ts, sub_ana s ts = Ok (map X ts, map Xd ts)) /\ X 0 = sub_init s /\
  (forall t, length (X t) = sub_dim s) /\ (forall t, length (Xd t) = sub_dim s) /\
  (forall t, regular s t -> sub_diffeq s (X t) = Ok (Xd t)).
Proof.
  intros [Ht H]. unfold sub_dim. destruct s as [e|g|h|h]; cbn [sub_ana sub_init sub_diffeq sub_tau regular] in *.
  - destruct H as [H1 H2]. exists (eX e), (eXd e).
    destruct (solves_form _ _ _ _ _ (e_solves e Ht H1 H2)) as (A & B & C & D & E).
    repeat split; [exact A|exact B|exact C|exact D|]. intros t _; apply E.
  - destruct H as (H1 & H2 & H3). exists (sX g), (sXd g).
    destruct (solves_form _ _ _ _ _ (s_solves g H1 H2 H3)) as (A & B & C & D & E).
    repeat split; [exact A|exact B|exact C|exact D|]. intros t _; apply E.
  - destruct H as (H1 & H2 & H3). destruct (richards_exact h Ht H1 H2 H3) as (X & Xd & Hs & _).
    exists X, Xd. destruct (solves_form _ _ _ _ _ Hs) as (A & B & C & D & E). repeat split; trivial; intros t _; apply E.
  - destruct (time_solution h Ht H) as (X & Xd & A & B & C & D & E). exists X, Xd. rewrite H. cbn. repeat split; trivial.
    rewrite B. exact H.
Qed.

(** ** the spring system *)
Lemma d_diffeq_form s y z : d_tau s <> 0 -> length (d_attr s) = d_dimy s ->
  par_ok (d_damp s) (d_dimy s) -> par_ok (d_spring s) (d_dimy s) -> par_ok (d_mass s) (d_dimy s) ->
  (forall i, (i < d_dimy s)%nat -> par_val (d_mass s) i <> 0) ->
  length y = d_dimy s -> length z = d_dimy s ->
  d_diffeq s (y ++ z)%list = Ok (map (fun v => v / d_tau s) z ++
     map (fun i => (- par_val (d_spring s) i * (nth i y 0 - nth i (d_attr s) 0) - par_val (d_damp s) i * nth i z 0)
                   / (par_val (d_mass s) i * d_tau s)) (seq 0 (d_dimy s)))%list.
Proof.
  intros Ht Ha Hd Hk Hm HM Hy Hz. unfold d_diffeq. cbv zeta.
  assert (E1 : firstn (d_dimy s) (y ++ z) = y).
  { rewrite <- Hy, firstn_app, Nat.sub_diag, firstn_all. apply app_nil_r. }
  assert (E2 : skipn (d_dimy s) (y ++ z) = z).
  { rewrite <- Hy, skipn_app, Nat.sub_diag, skipn_all. reflexivity. }
  rewrite E1, E2. clear E1 E2.
  rewrite vdiv_ok by trivial. cbn [bind].
  erewrite mapM_pure; [reflexivity|]. intros i Hi. apply in_seq in Hi. cbn beta.
  rewrite !(par_at_ok _ (d_dimy s)) by (trivial; lia). cbn [bind].
  rewrite !(nth_res_ok _ _ 0) by lia. cbn [bind].
  destruct (Req_EM_T (par_val (d_mass s) i * d_tau s) 0) as [E|_]; [|reflexivity].
  apply Rmult_integral in E. destruct E; [exfalso; apply (HM i); [lia|trivial]|contradiction].
Qed.
