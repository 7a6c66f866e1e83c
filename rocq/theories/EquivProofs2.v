From Coq Require Import String.
From Verif Require Import Base BaseLemmas SessionModel UpdatersModel UpdatersSpec LoopModel LoopSpec LoopProofs EquivSpec.
Open Scope R_scope.

(** Two runs whose calls correspond make corresponding calls and return corresponding results. *)
Section Sim.
Variables CV P S : Type.
Variables catA catB : oval CV P -> ext.
Variables orcA orcB : oracles CV S.
Notation st := (st CV P S).
Notation M := (M CV P S).
Variable ev : event CV -> event CV.
Variables (Qe : event CV -> Prop) (E : Prop).

Definition grows {X} (m : M X) : Prop := forall s, exists l, st_trace (fst (m s)) = (st_trace s ++ l)%list.
Definition sim {X Y} (f : X -> Y) (post : X -> Prop) (m : M X) (m' : M Y) : Prop :=
  forall s t s1 r, st_out t = st_out s -> st_trace t = map ev (st_trace s) -> m s = (s1, r) ->
  (forall e, In e (st_trace s1) -> Qe e) -> ((exists e, r = Err e) -> E) ->
  match r with Ok a => post a | Err _ => True end /\
  exists t1, m' t = (t1, res_map f r) /\ st_out t1 = st_out s1 /\ st_trace t1 = map ev (st_trace s1).

Lemma grows_ret X (a : X) : grows (ret CV P S a).
Proof. intros s. exists []. cbn. now rewrite app_nil_r. Qed.
Lemma grows_db f : grows (on_db CV P S f).
Proof. intros s. exists []. cbn. now rewrite app_nil_r. Qed.
Lemma grows_call X (F : S -> S * res X) e : grows (call_out CV P S F e).
Proof.
  intros s. unfold call_out. destruct (F (st_out s)) as [o [a|x]]; cbn; [exists [e a]; reflexivity|exists []; now rewrite app_nil_r].
Qed.
Lemma grows_bind X Y (m : M X) (k : X -> M Y) : grows m -> (forall a, grows (k a)) -> grows (bindM CV P S m k).
Proof.
  intros Hm Hk s. unfold bindM. destruct (Hm s) as [l El]. destruct (m s) as [s1 [a|x]]; cbn in *.
  - destruct (Hk a s1) as [l' El']. exists (l ++ l')%list. now rewrite El', El, app_assoc.
  - eauto.
Qed.
Lemma grows_mapMM X Y (F : X -> M Y) xs : (forall x, grows (F x)) -> grows (mapMM CV P S F xs).
Proof.
  intros H. induction xs; cbn [mapMM]; [apply grows_ret|].
  apply grows_bind; [apply H|intros]. apply grows_bind; [exact IHxs|intros]. apply grows_ret.
Qed.

Lemma sim_ret X Y (f : X -> Y) (post : X -> Prop) a : post a -> sim f post (ret CV P S a) (ret CV P S (f a)).
Proof. intros Ha s t s1 r Ho Ht H _ _. cbn in H. injection H as <- <-. split; [exact Ha|]. exists t. auto. Qed.
Lemma sim_db f g : sim (fun x : unit => x) (fun _ => True) (on_db CV P S f) (on_db CV P S g).
Proof. intros s t s1 r Ho Ht H _ _. cbn in H. injection H as <- <-. split; [exact I|]. eexists. split; [reflexivity|]. auto. Qed.
Lemma sim_call X Y (f : X -> Y) (post : X -> Prop) (F : S -> S * res X) (G : S -> S * res Y) e e' :
  (forall a, ev (e a) = e' (f a)) ->
  (forall o o' r, F o = (o', r) -> match r with Ok a => Qe (e a) | Err _ => E end ->
     G o = (o', res_map f r) /\ match r with Ok a => post a | Err _ => True end) ->
  sim f post (call_out CV P S F e) (call_out CV P S G e').
Proof.
  intros He H s t s1 r Ho Ht Hr HQ HE. apply call_out_inv in Hr. destruct Hr as (_ & Htr & HF).
  destruct (H _ _ _ HF) as [HG Hp].
  { destruct r; [apply HQ; rewrite Htr; apply in_or_app; right; left; reflexivity|apply HE; eauto]. }
  split; [exact Hp|]. unfold call_out. rewrite Ho, HG. destruct r as [a|x]; cbn [res_map].
  - eexists. split; [reflexivity|]. cbn. split; [reflexivity|]. rewrite Htr, map_app, Ht. cbn. now rewrite He.
  - eexists. split; [reflexivity|]. cbn. split; [reflexivity|]. now rewrite Htr, Ht.
Qed.
Lemma sim_bind X Y X' Y' (f : X -> X') (g : Y -> Y') (p : X -> Prop) (q : Y -> Prop) m m' k k' :
  sim f p m m' -> (forall a, grows (k a)) -> (forall a, p a -> sim g q (k a) (k' (f a))) ->
  sim g q (bindM CV P S m k) (bindM CV P S m' k').
Proof.
  intros Hm Hg Hk s t s1 r Ho Ht Hr HQ HE. apply bind_inv in Hr. destruct Hr as (s2 & r2 & H2 & H3).
  destruct r2 as [a|x].
  - destruct (Hg a s2) as [l Hl]. rewrite H3 in Hl. cbn in Hl.
    destruct (Hm s t s2 (Ok a) Ho Ht H2) as (Pa & t2 & Em & Ho2 & Ht2).
    { intros e He. apply HQ. rewrite Hl. apply in_or_app. now left. }
    { intros [? ?]. discriminate. }
    destruct (Hk a Pa s2 t2 s1 r Ho2 Ht2 H3 HQ HE) as (Qr & t1 & Ek & Ho1 & Ht1).
    split; [exact Qr|]. exists t1. unfold bindM. rewrite Em. cbn [res_map]. auto.
  - destruct H3 as [-> ->]. destruct (Hm s t s2 (Err x) Ho Ht H2 HQ) as (_ & t2 & Em & Ho2 & Ht2).
    { intros _. apply HE. eauto. }
    split; [exact I|]. exists t2. unfold bindM. rewrite Em. cbn [res_map]. auto.
Qed.
Lemma sim_mapMM X Y X' Y' (fx : X -> X') (f : Y -> Y') (F : X -> M Y) (G : X' -> M Y') xs :
  (forall x, grows (F x)) ->
  (forall x, In x xs -> sim f (fun _ => True) (F x) (G (fx x))) ->
  sim (map f) (fun _ => True) (mapMM CV P S F xs) (mapMM CV P S G (map fx xs)).
Proof.
  intros Hg H. induction xs as [|x xs IH]; cbn [mapMM map].
  - exact (sim_ret _ _ (map f) (fun _ => True) [] I).
  - eapply sim_bind; [apply H; now left| |].
    { intros a. apply grows_bind; [now apply grows_mapMM|intros; apply grows_ret]. }
    intros a _. eapply sim_bind; [apply IH; intros; apply H; now right|intros; apply grows_ret|].
    intros b _. exact (sim_ret _ _ (map f) (fun _ => True) (a :: b) I).
Qed.

Variables (fx : list R -> list R) (fm : mat -> mat) (fd : dist -> dist) (fc : cost -> cost).
Variables (vx : list R -> Prop) (vd : dist -> Prop) (vm : dist -> mat -> Prop).
Hypothesis ev_gen : forall d n m, ev (EGen d n m) = EGen (fd d) n (fm m).
Hypothesis ev_eval : forall x k, ev (EEval x k) = EEval (fx x) (fc k).
Hypothesis ev_upd : forall d m cs d' w, ev (EUpd d m cs d' w) = EUpd (fd d) (fm m) (map fc cs) (fd d') w.
Hypothesis ev_roll : forall x v, ev (ERoll x v) = ERoll (fx x) v.
Hypothesis ev_evalr : forall v x k, ev (EEvalR v x k) = EEvalR v (fx x) (fc k).
Hypothesis mean_fd : forall d, d_mean (fd d) = fx (d_mean d).
Hypothesis rows_fm : forall m, mrows (fm m) = map fx (mrows m).
Hypothesis vd_vx : forall d, vd d -> vx (d_mean d).
Hypothesis vm_vx : forall d m x, vm d m -> In x (mrows m) -> vx x.
Hypothesis eval_ok : forall o o' x r, vx x -> o_eval CV S orcA o x = (o', r) -> o_eval CV S orcB o (fx x) = (o', res_map fc r).
Hypothesis roll_ok : forall o o' x r, vx x -> o_roll CV S orcA o x = (o', r) -> o_roll CV S orcB o (fx x) = (o', r).
Hypothesis evalr_ok : forall o o' v x r, vx x -> o_evalr CV S orcA o v x = (o', r) -> o_evalr CV S orcB o v (fx x) = (o', res_map fc r).
Hypothesis gen_ok : forall o o' d n r, vd d -> o_gen CV S orcA o d n = (o', r) ->
  o_gen CV S orcB o (fd d) n = (o', res_map fm r) /\ match r with Ok m => vm d m | Err _ => True end.
Hypothesis upd_ok : forall o o' d m cs r, vd d -> vm d m -> o_upd CV S orcA o d m cs = (o', r) ->
  match r with Ok p => Qe (EUpd d m cs (fst p) (snd p)) | Err _ => E end ->
  o_upd CV S orcB o (fd d) (fm m) (map fc cs) = (o', res_map (fun p => (fd (fst p), snd p)) r) /\
  match r with Ok p => vd (fst p) | Err _ => True end.

Lemma res_map_id X (r : res X) : res_map (fun a => a) r = r.
Proof. now destruct r. Qed.
Lemma sim_eval x : vx x -> sim fc (fun _ => True) (m_eval CV P S orcA x) (m_eval CV P S orcB (fx x)).
Proof.
  intros Hx. apply sim_call; [intros; apply ev_eval|]. intros o o' r H _. split; [now apply eval_ok|now destruct r].
Qed.
Lemma sim_gen d n : vd d -> sim fm (vm d) (m_gen CV P S orcA d n) (m_gen CV P S orcB (fd d) n).
Proof. intros Hd. apply sim_call; [intros; apply ev_gen|]. intros o o' r H _. now apply gen_ok. Qed.
Lemma sim_upd d m cs : vd d -> vm d m ->
  sim (fun p => (fd (fst p), snd p)) (fun p => vd (fst p)) (m_upd CV P S orcA d m cs) (m_upd CV P S orcB (fd d) (fm m) (map fc cs)).
Proof. intros Hd Hm. apply sim_call; [intros; apply ev_upd|]. intros o o' r H HQ. now apply upd_ok. Qed.
Lemma sim_roll x : vx x -> sim (fun v => v) (fun _ => True) (m_roll CV P S orcA x) (m_roll CV P S orcB (fx x)).
Proof.
  intros Hx. apply sim_call; [intros; apply ev_roll|]. intros o o' r H _. rewrite res_map_id. split; [now apply roll_ok|now destruct r].
Qed.
Lemma sim_evalr v x : vx x -> sim fc (fun _ => True) (m_evalr CV P S orcA v x) (m_evalr CV P S orcB v (fx x)).
Proof.
  intros Hx. apply sim_call; [intros; apply ev_evalr|]. intros o o' r H _. split; [now apply evalr_ok|now destruct r].
Qed.

Ltac grow := repeat first [apply grows_ret | apply grows_db | apply grows_call | apply grows_mapMM; intros
                          | apply grows_bind; [|intros]].

Lemma sim_opt_update n i d : vd d ->
  sim fd vd (opt_update CV P S catA orcA n i d) (opt_update CV P S catB orcB n i (fd d)).
Proof.
  intros Hd. unfold opt_update. rewrite mean_fd.
  eapply sim_bind; [apply sim_eval, vd_vx, Hd|intros; grow|]. intros c _.
  eapply sim_bind; [apply sim_gen, Hd|intros; grow|]. intros m Hm. rewrite rows_fm.
  eapply sim_bind; [apply sim_mapMM; [intros; grow|]|intros; grow|].
  { intros x Hx. apply sim_eval. eapply vm_vx; eauto. }
  intros cs _. eapply sim_bind; [apply sim_upd; assumption|intros; grow|]. intros p Hp.
  eapply sim_bind; [apply sim_db|intros; grow|]. intros _ _.
  eapply sim_bind; [apply sim_db|intros; grow|]. intros _ _. exact (sim_ret _ _ fd vd (fst p) Hp).
Qed.
Lemma grows_opt_loop n k : forall i d, grows (opt_loop CV P S catA orcA n i k d).
Proof.
  induction k as [|k IH]; intros i d; cbn [opt_loop]; [apply grows_ret|].
  apply grows_bind; [|intros; apply IH]. unfold opt_update. grow.
Qed.
Lemma sim_opt_loop n k : forall i d, vd d ->
  sim fd vd (opt_loop CV P S catA orcA n i k d) (opt_loop CV P S catB orcB n i k (fd d)).
Proof.
  induction k as [|k IH]; intros i d Hd; cbn [opt_loop]; [exact (sim_ret _ _ fd vd d Hd)|].
  eapply sim_bind; [apply sim_opt_update, Hd|intros; apply grows_opt_loop|]. intros d' Hd'. now apply IH.
Qed.

Lemma grows_rollouts i xs : forall j, grows (rollouts CV P S catA orcA i j xs).
Proof.
  induction xs as [|x xs IH]; intros j; cbn [rollouts]; [apply grows_ret|].
  apply grows_bind; [grow|intros]. apply grows_bind; [grow|intros]. apply grows_bind; [unfold add_rollout, m_tell; grow|intros].
  apply grows_bind; [apply IH|intros]. grow.
Qed.
Lemma sim_rollouts i xs : (forall x, In x xs -> vx x) -> forall j,
  sim (map fc) (fun _ => True) (rollouts CV P S catA orcA i j xs) (rollouts CV P S catB orcB i j (map fx xs)).
Proof.
  induction xs as [|x xs IH]; intros Hx j; cbn [rollouts map]; [exact (sim_ret _ _ (map fc) (fun _ => True) [] I)|].
  eapply sim_bind; [apply sim_roll, Hx; now left| |].
  { intros. apply grows_bind; [grow|intros]. apply grows_bind; [unfold add_rollout, m_tell; grow|intros].
    apply grows_bind; [apply grows_rollouts|intros; grow]. }
  intros v _. eapply sim_bind; [apply sim_evalr, Hx; now left| |].
  { intros. apply grows_bind; [unfold add_rollout, m_tell; grow|intros]. apply grows_bind; [apply grows_rollouts|intros; grow]. }
  intros c _. eapply (sim_bind _ _ _ _ (fun x : unit => x) _ (fun _ => True)).
  { unfold add_rollout, m_tell. eapply sim_bind; [apply sim_db|intros; grow|]. intros _ _.
    eapply sim_bind; [apply sim_db|intros; grow|]. intros _ _. apply sim_db. }
  { intros. apply grows_bind; [apply grows_rollouts|intros; grow]. }
  intros _ _. eapply sim_bind; [apply IH; intros; apply Hx; now right|intros; grow|].
  intros cs _. exact (sim_ret _ _ (map fc) (fun _ => True) (c :: cs) I).
Qed.
Lemma grows_task_update n i d : grows (task_update CV P S catA orcA n i d).
Proof.
  unfold task_update. apply grows_bind; [grow|intros]. apply grows_bind; [grow|intros].
  apply grows_bind; [unfold add_eval_task, m_add_eval, m_tell; grow|intros]. apply grows_bind; [grow|intros].
  apply grows_bind; [apply grows_rollouts|intros]. grow.
Qed.
Lemma sim_task_update n i d : vd d ->
  sim fd vd (task_update CV P S catA orcA n i d) (task_update CV P S catB orcB n i (fd d)).
Proof.
  intros Hd. unfold task_update. rewrite mean_fd.
  eapply sim_bind; [apply sim_roll, vd_vx, Hd| |].
  { intros. apply grows_bind; [grow|intros]. apply grows_bind; [unfold add_eval_task, m_add_eval, m_tell; grow|intros].
    apply grows_bind; [grow|intros]. apply grows_bind; [apply grows_rollouts|intros]. grow. }
  intros v _. eapply sim_bind; [apply sim_evalr, vd_vx, Hd| |].
  { intros. apply grows_bind; [unfold add_eval_task, m_add_eval, m_tell; grow|intros].
    apply grows_bind; [grow|intros]. apply grows_bind; [apply grows_rollouts|intros]. grow. }
  intros c _. eapply (sim_bind _ _ _ _ (fun x : unit => x) _ (fun _ => True)).
  { unfold add_eval_task, m_add_eval, m_tell. eapply sim_bind; [apply sim_db|intros; grow|]. intros _ _. apply sim_db. }
  { intros. apply grows_bind; [grow|intros]. apply grows_bind; [apply grows_rollouts|intros]. grow. }
  intros _ _. eapply sim_bind; [apply sim_gen, Hd| |].
  { intros. apply grows_bind; [apply grows_rollouts|intros]. grow. }
  intros m Hm. rewrite rows_fm.
  eapply sim_bind; [apply sim_rollouts; intros x Hx; eapply vm_vx; eauto|intros; grow|].
  intros cs _. eapply sim_bind; [apply sim_upd; assumption|intros; grow|]. intros p Hp.
  eapply sim_bind; [apply sim_db|intros; grow|]. intros _ _. exact (sim_ret _ _ fd vd (fst p) Hp).
Qed.
Lemma grows_task_loop n k : forall i d, grows (task_loop CV P S catA orcA n i k d).
Proof.
  induction k as [|k IH]; intros i d; cbn [task_loop]; [apply grows_ret|].
  apply grows_bind; [apply grows_task_update|intros; apply IH].
Qed.
Lemma sim_task_loop n k : forall i d, vd d ->
  sim fd vd (task_loop CV P S catA orcA n i k d) (task_loop CV P S catB orcB n i k (fd d)).
Proof.
  induction k as [|k IH]; intros i d Hd; cbn [task_loop]; [exact (sim_ret _ _ fd vd d Hd)|].
  eapply sim_bind; [apply sim_task_update, Hd|intros; apply grows_task_loop|]. intros d' Hd'. now apply IH.
Qed.

Lemma run_sim w0 r cf up w0' r' cf' up' d0 k n o tr ws ws' :
  vd d0 -> let A := run_optimization CV P S catA orcA w0 r cf up d0 k n (St o tr ws) in
  (forall e, In e (st_trace (fst A)) -> Qe e) -> ((exists e, snd A = Err e) -> E) ->
  same_run fd ev A (run_optimization CV P S catB orcB w0' r' cf' up' (fd d0) k n (St o (map ev tr) ws')).
Proof.
  intros Hd A HQ HE. destruct A as [s1 res] eqn:EA.
  pose proof (fun db db' => sim_opt_loop n k 0%nat d0 Hd (St o tr db) (St o (map ev tr) db') s1 res eq_refl eq_refl) as H.
  unfold A, run_optimization in EA. cbn [st_out st_trace] in EA.
  unfold run_optimization. cbn [st_out st_trace].
  match goal with |- same_run _ _ _ (opt_loop _ _ _ _ _ _ _ _ _ (St _ _ ?d)) => set (db' := d) end.
  destruct (H _ db' EA HQ HE) as (_ & t1 & Et & Ho & Ht). unfold same_run. rewrite Et. auto.
Qed.
Lemma run_task_sim w0 r tk tsv up w0' r' tk' tsv' up' d0 k n o tr ws ws' :
  vd d0 -> let A := run_optimization_task CV P S catA orcA w0 r tk tsv up d0 k n (St o tr ws) in
  (forall e, In e (st_trace (fst A)) -> Qe e) -> ((exists e, snd A = Err e) -> E) ->
  same_run fd ev A (run_optimization_task CV P S catB orcB w0' r' tk' tsv' up' (fd d0) k n (St o (map ev tr) ws')).
Proof.
  intros Hd A HQ HE. destruct A as [s1 res] eqn:EA.
  pose proof (fun db db' => sim_task_loop n k 0%nat d0 Hd (St o tr db) (St o (map ev tr) db') s1 res eq_refl eq_refl) as H.
  unfold A, run_optimization_task in EA. cbn [st_out st_trace] in EA.
  unfold run_optimization_task. cbn [st_out st_trace].
  match goal with |- same_run _ _ _ (task_loop _ _ _ _ _ _ _ _ _ (St _ _ ?d)) => set (db' := d) end.
  destruct (H _ db' EA HQ HE) as (_ & t1 & Et & Ho & Ht). unfold same_run. rewrite Et. auto.
Qed.
End Sim.
