(** Proofs about setting parameters of the subsystems of a DMP. *)
From Coq Require Import String.
From Verif Require Import Base BaseLemmas DynModel DynSpec ParamModel FaModel TrajModel DmpModel DmpSpec DmpProofs TuneModel TuneSpec.
Open Scope string_scope.

Lemma lookup_cons {V} n (v : V) d k : lookup ((n, v) :: d) k = if n =? k then Some v else lookup d k.
Proof. cbn [lookup]. destruct (String.eqb_spec k n) as [->|H]; [now rewrite String.eqb_refl|]. destruct (String.eqb_spec n k); [congruence|reflexivity]. Qed.
Lemma lookup_none {V} (d : list (string * V)) k : lookup d k = None <-> ~ In k (map fst d).
Proof.
  induction d as [|[n v] d IH]; [cbn; tauto|]. rewrite lookup_cons. cbn [map fst In]. destruct (String.eqb_spec n k) as [->|H].
  - split; [discriminate|]. intros H. exfalso. apply H. now left.
  - rewrite IH. tauto.
Qed.
Lemma new_cons n v ps k old : dict ((n, v) :: ps) -> new ((n, v) :: ps) k old = new ps k (if n =? k then v else old).
Proof.
  intros D. unfold new. rewrite lookup_cons. destruct (String.eqb_spec n k) as [->|H]; [|reflexivity].
  cbn in D. unfold dict in D. cbn [map fst] in D. inversion D as [|? ? H1 H2]; subst. apply lookup_none in H1. rewrite H1. reflexivity.
Qed.
Lemma names_tail l n v ps : names_in l ((n, v) :: ps) -> In n l /\ names_in l ps.
Proof. intros [D H]. split; [apply H; now left|]. split; [inversion D; trivial|]. intros k Hk. apply H. now right. Qed.

Lemma spring_attr_ok s n v : In n spring_names ->
  spring_attr s n v = Ok (Dsys (d_tau s) (d_init s) (d_attr s) (if n =? "damping_coefficient" then v else d_damp s)
    (if n =? "spring_constant" then v else d_spring s) (if n =? "mass" then v else d_mass s) (d_dimy s)).
Proof. intros [<-|[<-|[<-|[]]]]; destruct s; reflexivity. Qed.
Lemma set_spring_ok : forall ps s, names_in spring_names ps -> set_attrs spring_attr s ps = (spring_with s ps, Ok tt).
Proof.
  induction ps as [|[n v] ps IH]; intros s H; [destruct s; reflexivity|]. destruct (names_tail _ _ _ _ H) as [Hn H']. cbn [set_attrs].
  rewrite spring_attr_ok by exact Hn. rewrite IH by exact H'. unfold spring_with. cbn [d_tau d_init d_attr d_damp d_spring d_mass d_dimy].
  rewrite !(new_cons n v ps) by apply H. reflexivity.
Qed.
Lemma sub_attr_ok s n v : In n (sub_names s) -> exists s', sub_attr s n v = Ok s' /\ sub_names s' = sub_names s /\
  forall ps, dict ((n, v) :: ps) -> sub_with ps s' = sub_with ((n, v) :: ps) s.
Proof.
  destruct s as [[t x a al]|g|[t x r i al w l]|t]; cbn [sub_names]; [| |intros H|]; try contradiction.
  - intros [<-|[]]. eexists. split; [reflexivity|]. split; [reflexivity|]. intros ps D. cbn [sub_with e_tau e_init e_attr e_alpha]. rewrite !(new_cons _ v ps) by exact D. reflexivity.
  - destruct H as [<-|[<-|[<-|[]]]]; (eexists; split; [reflexivity|]; split; [reflexivity|]; intros ps D; cbn [sub_with h_tau h_init h_right h_infl h_alpha h_v h_left]; rewrite !(new_cons _ v ps) by exact D; reflexivity).
Qed.
Lemma set_sub_ok : forall ps s, names_in (sub_names s) ps -> set_attrs sub_attr s ps = (sub_with ps s, Ok tt).
Proof.
  induction ps as [|[n v] ps IH]; intros s H; [destruct s as [[]| |[]|]; reflexivity|]. destruct (names_tail _ _ _ _ H) as [Hn H']. cbn [set_attrs].
  destruct (sub_attr_ok s n v Hn) as (s' & E & Es & Ew). rewrite E, IH by (rewrite Es; exact H'). rewrite Ew by apply H. reflexivity.
Qed.
Lemma sub_with_nil s : sub_with [] s = s.
Proof. destruct s as [[]| |[]|]; reflexivity. Qed.
Lemma optional_ok o ps n params : lookup params n = ps -> (ps <> None -> o <> None) -> (forall s, o = Some s -> names_in (sub_names s) (for_system params n)) ->
  set_optional o ps = (option_map (sub_with (for_system params n)) o, Ok tt).
Proof.
  intros E H1 H2. unfold for_system in *. rewrite E in *. destruct ps as [ps|]; cbn [set_optional opt] in *.
  - destruct o as [s|]; [|now destruct H1]. rewrite set_sub_ok by now apply H2. reflexivity.
  - destruct o as [s|]; cbn [option_map]; [now rewrite sub_with_nil|reflexivity].
Qed.
Lemma lookup_in {V} (d : list (string * V)) k : lookup d k <> None -> In k (map fst d).
Proof. intros H. destruct (in_dec string_dec k (map fst d)) as [|N]; [trivial|]. apply lookup_none in N. congruence. Qed.
Lemma set_ok m params : proper_settings m params -> set_params_dyn_sys m params = (tuned m params, Ok tt).
Proof.
  intros (D & Hn & Hs & Hg & Hd). unfold set_params_dyn_sys.
  assert (E1 : set_spring m params = (with_systems m (spring_with (m_spring m) (for_system params "spring_system")) (m_goal m) (m_damping m), Ok tt)).
  { unfold set_spring, for_system in *. destruct (lookup params "spring_system") as [ps|]; cbn [opt] in *.
    - now rewrite set_spring_ok.
    - destruct m as [? ? ? ? ? ? ? sp]; destruct sp; reflexivity. }
  rewrite E1. cbn [with_systems m_goal m_damping m_spring].
  rewrite (optional_ok (m_goal m) _ "goal_system" params eq_refl); [|..|exact Hg].
  2:{ intros H. apply lookup_in, Hn in H. destruct H as [H|[[_ H]|[H _]]]; [discriminate H|exact H|discriminate H]. }
  rewrite (optional_ok (m_damping m) _ "damping_system" params eq_refl); [|..|exact Hd].
  2:{ intros H. apply lookup_in, Hn in H. destruct H as [H|[[H _]|[_ H]]]; [discriminate H|discriminate H|exact H]. }
  replace (forallb _ params) with true; [reflexivity|]. symmetry. apply forallb_forall. intros p Hp. specialize (Hn (fst p) (in_map fst _ _ Hp)).
  unfold mem, dmp_attrs. apply existsb_exists. exists (fst p). split; [|apply String.eqb_refl]. apply in_or_app. left.
  destruct Hn as [->|[[-> _]|[-> _]]]; cbn; tauto.
Qed.
(** the DMP is as good as before *)
Lemma new_fit n ps k old : fitting n ps -> par_ok old n -> par_ok (new ps k old) n.
Proof.
  intros F O. unfold new. destruct (lookup ps k) as [v|] eqn:E; [|exact O]. cbn [opt]. induction ps as [|[n' v'] ps IH]; [discriminate|].
  inversion F; subst. rewrite lookup_cons in E. destruct (n' =? k); [injection E as <-; assumption|auto].
Qed.
Lemma sub_with_dim ps s : sub_dim (sub_with ps s) = sub_dim s.
Proof. now destruct s as [[]| |[]|]. Qed.
Lemma sub_with_ok ps s : fitting (sub_dim s) ps -> sub_ok s -> sub_ok (sub_with ps s).
Proof.
  intros F (Ht & H). unfold sub_dim in F. destruct s as [e|g|h|t]; cbn [sub_with sub_init] in *; split; trivial.
  - destruct H. split; [trivial|]. now apply new_fit.
  - destruct H as (H1 & (H2 & H3 & H4 & H5 & H6) & H7). split; [trivial|]. split; [|trivial]. unfold richards_ok. cbn.
    split; [trivial|]. split; [now apply new_fit|]. split; [now apply new_fit|]. split; [now apply new_fit|trivial].
Qed.
Lemma tuned_wf pf m params : wf pf m -> (forall n, fitting (m_dim m) (for_system params n)) -> positive_mass (m_dim m) (for_system params "spring_system") -> wf pf (tuned m params).
Proof.
  intros (A1 & A2 & A3 & A4 & A5 & A6 & A7 & A8 & A9 & A10 & A11 & A12 & A13 & A14 & A15 & A16 & A17 & A18 & A19) F M. unfold wf, tuned, spring_with. cbn.
  do 8 (split; [assumption|]). do 3 (split; [now apply new_fit|]). split.
  { intros i Hi. unfold new. destruct (lookup (for_system params "spring_system") "mass") as [v|] eqn:E; cbn [opt]; [now apply (M v i)|now apply A12]. }
  assert (O : forall n o, opt_ok (m_dim m) o -> opt_ok (m_dim m) (option_map (sub_with (for_system params n)) o)).
  { intros n [s|]; cbn; [|trivial]. intros [H1 H2]. split; [apply sub_with_ok; [rewrite H2; apply F|trivial]|now rewrite sub_with_dim]. }
  split; [now apply O|]. split; [now apply O|]. do 4 (split; [assumption|]). exact A19.
Qed.
(** success means that all names were recognized *)
Lemma set_attrs_known {S} (set : S -> string -> param -> res S) (known : S -> string -> Prop) :
  (forall s n v s', set s n v = Ok s' -> known s n /\ forall k, known s' k -> known s k) ->
  forall ps s s', set_attrs set s ps = (s', Ok tt) -> forall n, In n (map fst ps) -> known s n.
Proof.
  intros H. induction ps as [|[k v] ps IH]; intros s s' E n Hn; [destruct Hn|]. cbn [set_attrs] in E. destruct (set s k v) as [s1|] eqn:E1; [|discriminate].
  destruct (H _ _ _ _ E1) as [H1 H2]. destruct Hn as [<-|Hn]; [exact H1|]. apply H2. exact (IH _ _ E n Hn).
Qed.
