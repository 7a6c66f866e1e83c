(** Concrete optimizations: witnesses for the properties, and the step from the three updaters to the
    updaters assumed in LoopProofs3. *)
From Coq Require Import String Ascii NArith.
From Verif Require Import Base BaseLemmas SessionModel SessionSpec SessionProofs UpdatersModel UpdatersSpec UpdatersProofs3
  LoopModel LoopSpec LoopProofs LoopProofs2 LoopProofs3.
Open Scope string_scope.

(** ** A world with a call counter; the cost function fails at call number [fail] *)
Definition x_cat {CV P} (v : oval CV P) : ext := match v with OVec _ | OMat _ | OInt _ => Txt | _ => Json end.
Definition x_to_int {CV P} (v : oval CV P) : option Z := match v with OInt z => Some z | _ => None end.
Definition x_world {V} : world V := World [] empty_disk [].
Definition x_dist : dist := Dist [1; 2]%R (Mat 2 [[1; 0]; [0; 1]]%R) None.
Definition x_samples (n : Z) : mat := Mat 2 (map (fun j => [INR j; 1%R]) (seq 0 (Z.to_nat n))).
Definition x_orc (fail : nat) : oracles unit nat :=
  Oracles unit nat
    (fun c _ n => (c, Ok (x_samples n)))
    (fun c x => if Nat.eqb c fail then (S c, Err ValueError) else (S c, Ok (CScalar (INR c))))
    (fun c d m cs => (c, Ok (Dist (d_mean d) (d_covar d) None, map (fun _ => 1%R) cs)))
    (fun c x => if Nat.eqb c fail then (S c, Err ValueError) else (S c, Ok tt))
    (fun c _ x => (c, Ok (CVec [INR c; 1%R]))).
Definition x_st : st unit unit nat := St 0%nat [] (x_world, Sess 0 RNone [] None).
Definition x_run fail := run_optimization unit unit nat x_cat (x_orc fail) x_world RDir (OObj 1) (OObj 2) x_dist 3 2 x_st.
Definition x_run_task fail := run_optimization_task unit unit nat x_cat (x_orc fail) x_world RDir (OObj 1) (OObj 2) (OObj 3) x_dist 3 2 x_st.

(** the exception, the number of calls, the number of files *)
Definition outcome {CV P S A} (r : st CV P S * res A) : option exn * nat * nat :=
  (match snd r with Ok _ => None | Err e => Some e end, length (st_trace (fst r)),
   length (d_files (w_disk (fst (st_db (fst r)))))).

(** ** A DMP that is its parameter vector *)
Definition y_gen (g : nat) (d : dist) (n : Z) : nat * res mat :=
  (S g, Ok (Mat 1 (map (fun j => [INR (g + j)]) (seq 0 (Z.to_nat n))))).
Definition y_set (p x : list R) : res (list R) := if Nat.eqb (length x) 1 then Ok x else Err ValueError.
Definition y_evaluate (v x : list R) : res cost := Ok (CVec (hd 0%R v :: x)).
Definition y_update (d : dist) (m : mat) (cs : list cost) : res (dist * list R) :=
  match mapM first_cost cs with Ok xs => Ok (Dist (firstn 1 xs) (d_covar d) None, xs) | Err e => Err e end.
Definition y_dist : dist := Dist [1%R] (Mat 1 [[1%R]]) None.
Definition y_orc := dmp_oracles y_gen y_evaluate y_update y_set (fun p => Ok p).
Definition y_st : st (list R) (list R) (nat * list R) := St (0%nat, [5%R]) [] (x_world, Sess 0 RNone [] None).
Definition y_closed := run_optimization_task _ _ _ x_cat y_orc x_world RNone (OObj 1) (OObj 2) (OObj 3) y_dist 3 2 y_st.
Definition y_stepwise := bindM _ _ _ (prepare_optimization _ _ _ x_cat (fun _ v => v) y_orc y_set x_world RDir (OObj 1) (OObj 2) (OObj 3) y_dist 2 [5%R])
  (fun _ => steps _ _ _ x_cat (fun _ v => v) y_orc (fun p => p) y_set (fun p => Ok p) 2 0 3) y_st.

Lemma cost0_total c x : cost0 c = Ok x -> has_total c x.
Proof. destruct c as [r|[|a l]]; cbn; intros H; try discriminate. injection H as <-. right. eauto. Qed.
Lemma updaters_total argsort u d m cs xs : Forall2 (fun c x => cost0 c = Ok x) cs xs ->
  update_distribution argsort u d m (map CScalar xs) = update_distribution argsort u d m cs.
Proof.
  intros H.
  assert (T : Forall2 (fun c c' => exists r, has_total c r /\ has_total c' r) (map CScalar xs) cs).
  { induction H as [|c x cs xs H HF IH]; cbn; constructor; auto. exists x. split; [now left|now apply cost0_total]. }
  pose proof (fun mm e => same_totals argsort (map CScalar xs) cs mm e T) as E.
  destruct u; cbn [update_distribution]; unfold update_mean, update_covar_decay, update_covar_adapt; rewrite E; reflexivity.
Qed.
Lemma y_update_total d m cs xs : Forall2 (fun c x => cost0 c = Ok x) cs xs -> y_update d m (map CScalar xs) = y_update d m cs.
Proof.
  intros H. unfold y_update. assert (E : mapM first_cost (map CScalar xs) = mapM first_cost cs); [|now rewrite E].
  induction H as [|c x cs xs H HF IH]; [reflexivity|]. cbn [map mapM]. rewrite IH.
  assert (first_cost c = Ok x) as -> by (destruct c as [r|[|a l]]; cbn in *; congruence). reflexivity.
Qed.
