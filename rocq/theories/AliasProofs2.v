(** The dynamical systems are described correctly. *)
From Verif Require Import Base BaseLemmas DynModel AliasModel AliasDyn AliasSpec AliasProofs.

Lemma slice_all n (l : list R) : length l = n -> slice 0 n l = l.
Proof. intros <-. unfold slice. cbn. apply firstn_all. Qed.
Lemma pput_pget p : pput (pget p) p = p.
Proof. now destruct p. Qed.
Lemma sys_put f o : a_put f (a_get f o) o = o.
Proof.
  destruct o as [s|c|s|s|s]; cbn [a_put a_get].
  - destruct s, f as [|[|f]]; cbn; now rewrite ?pput_pget.
  - destruct c as [s k], s, f as [|[|f]]; cbn; now rewrite ?pput_pget.
  - destruct s as [a b c d e g h], f as [|[|[|[|[|f]]]]]; cbn; rewrite ?pput_pget; trivial. destruct h; now rewrite ?pput_pget.
  - now destruct s.
  - destruct s, f as [|[|[|[|f]]]]; cbn; now rewrite ?pput_pget.
Qed.
Lemma touch_get f o : a_get f (a_touch o) = a_get f o.
Proof. destruct o as [s|c|s|s|s]; trivial. cbn. unfold c_get_ks. destruct (c_ks c); trivial. now destruct (s_ks (c_sys c)). Qed.
Lemma touch_nf o : a_nf (a_touch o) = a_nf o.
Proof. now destruct o. Qed.
Lemma touch_kind o : a_init (a_touch o) = a_init o.
Proof. exact (eq_trans (eq_sym (match a_touch o with AE _ => eq_refl | AS _ => eq_refl | AR _ => eq_refl | AT _ => eq_refl | AD _ => eq_refl end))
  (eq_trans (touch_get 0 o) match o with AE _ => eq_refl | AS _ => eq_refl | AR _ => eq_refl | AT _ => eq_refl | AD _ => eq_refl end)). Qed.
Lemma init_get o : a_get 0 o = a_init o.
Proof. now destruct o. Qed.
Lemma with_init_get x o : a_get 0 (a_with_init x o) = x /\ a_nf (a_with_init x o) = a_nf o /\
  forall f, (0 < f < a_nf o)%nat -> a_get f (a_with_init x o) = a_get f o.
Proof.
  destruct o as [s|c|s|s|s]; cbn; (split; [reflexivity|]); (split; [reflexivity|]); intros f Hf; destruct f as [|f]; try lia; trivial.
Qed.
Lemma set_x_get x o o' : a_set_x x o = Ok o' -> length x = a_dimx o /\ o' = a_with_init x o.
Proof. unfold a_set_x, set_x_init. destruct (Nat.eqb_spec (length x) (a_dimx o)) as [E|E]; cbn; [|discriminate]. intros Q. split; congruence. Qed.
Lemma set_y_get y o o' : a_set_y y o = Ok o' -> exists x, o' = a_with_init x o /\ length x = a_dimx o /\ match o with AS _ => x = y | _ => True end.
Proof.
  unfold a_set_y. intros H.
  assert (Q : a_set_x y o = Ok o' -> exists x, o' = a_with_init x o /\ length x = a_dimx o /\ x = y).
  { intros E. apply set_x_get in E. destruct E as [E1 E2]. now exists y. }
  assert (Q' : (let* x := set_y_init (a_dimy o) (a_dimx o) y in Ok (a_with_init x o)) = Ok o' -> exists x, o' = a_with_init x o /\ length x = a_dimx o).
  { unfold set_y_init, set_x_init. destruct (Nat.eqb (length y) (a_dimy o)); cbn; [|discriminate].
    destruct (Nat.eqb_spec (length (pad (a_dimx o) y)) (a_dimx o)) as [E|E]; cbn; [|discriminate]. intros R1. eexists. split; [|exact E]. congruence. }
  destruct o; try (destruct (Q' H) as (x & E1 & E2); exists x; auto). destruct (Q H) as (x & E1 & E2 & E3). exists x. auto.
Qed.

Notation src := (sourced systems).
Definition fine (c : a_call) (o : asys) (args : list (list R)) (o' : asys) (rs : list (list R)) : Prop :=
  (forall f, (f < a_nf o')%nat -> src (Some o) args (a_binds c o args f) f (a_get f o') /\
     forall k off len, a_binds c o args f = Arg k off len -> In k (sys_keeps c o)) /\
  (forall j, (j < length rs)%nat -> match nth j (a_rets c o') RNew with
     | RNew => True
     | RField f off len => In j (sys_shares c o') /\ (f < a_nf o')%nat /\ (off + len <= length (a_get f o'))%nat /\ nth j rs [] = slice off len (a_get f o')
     end).
Lemma keep_src o args f v : (f < a_nf o)%nat -> v = a_get f o -> src (Some o) args Keep f v.
Proof. intros H1 H2. exact (conj H1 H2). Qed.
Lemma nf_pos o : (0 < a_nf o)%nat.
Proof. destruct o; cbn; lia. Qed.

Lemma touched_fine c o args rs : (forall f, a_binds c o args f = Keep) -> a_rets c (a_touch o) = [] -> fine c o args (a_touch o) rs.
Proof.
  intros HB HR. split.
  - intros f Hf. rewrite HB. rewrite touch_nf in Hf. split; [apply keep_src; [exact Hf|apply touch_get]|discriminate].
  - intros j _. rewrite HR. now destruct j.
Qed.
Lemma getter_fine c o f len rs : (f < a_nf o)%nat -> (forall f, a_binds c o [] f = Keep) -> a_rets c o = [RField f 0 len] -> In 0%nat (sys_shares c o) ->
  (len <= length (a_get f o))%nat -> rs = [slice 0 len (a_get f o)] -> fine c o [] o rs.
Proof.
  intros Hf HB HR HS HL ->. split.
  - intros g Hg. rewrite HB. split; [now apply keep_src|discriminate].
  - intros [|j] Hj; [|cbn in Hj; lia]. rewrite HR. cbn [nth]. auto.
Qed.
Lemma touch_dim o : a_dimx (a_touch o) = a_dimx o.
Proof. unfold a_dimx. now rewrite touch_kind. Qed.
Lemma nth_one_new j (r : rsource) : nth (S j) [r; RNew] RNew = RNew.
Proof. destruct j as [|[|j]]; reflexivity. Qed.

Lemma sys_fine c o args o' rs : a_meth c o args = Ok (o', rs) -> fine c o args o' rs.
Proof.
  intros H. destruct c as [t| | | |g| | | | | | | | |m dt|m]; cbn [a_meth] in H.
  - destruct args; [|discriminate]. injection H as <- <-. split; [|intros j Hj; cbn in Hj; lia].
    intros f Hf. split; [|discriminate]. destruct o; now apply keep_src.
  - destruct args as [|x [|]]; try discriminate. destruct (a_set_x x o) as [o1|] eqn:E; [|discriminate]. cbn in H. injection H as <- <-.
    apply set_x_get in E. destruct E as [L ->]. destruct (with_init_get x o) as (G0 & G1 & G2). split; [|intros j Hj; cbn in Hj; lia].
    intros f Hf. rewrite G1 in Hf. destruct f as [|f]; cbn [a_binds].
    + split; [|intros k off len Q; injection Q as <- _ _; now left]. rewrite G0. split; [cbn; lia|]. cbn [nth]. rewrite <- L. split; [lia|]. symmetry. now apply slice_all.
    + split; [|discriminate]. apply keep_src; [exact Hf|]. apply G2. lia.
  - destruct args as [|y [|]]; try discriminate. destruct (a_set_y y o) as [o1|] eqn:E; [|discriminate]. cbn in H. injection H as <- <-.
    apply set_y_get in E. destruct E as (x & -> & L & K). destruct (with_init_get x o) as (G0 & G1 & G2). split; [|intros j Hj; cbn in Hj; lia].
    intros f Hf. rewrite G1 in Hf. destruct f as [|f]; cbn [a_binds sys_keeps].
    + destruct o; try (split; [exact I|discriminate]). split; [|intros k off len Q; injection Q as <- _ _; now left]. rewrite G0. subst x. split; [cbn; lia|]. cbn [nth]. rewrite <- L. split; [lia|]. symmetry. now apply slice_all.
    + split; [|discriminate]. apply keep_src; [exact Hf|]. apply G2. lia.
  - destruct args as [|y [|]]; try discriminate. destruct (a_set_attr y o) as [o1|] eqn:E; [|discriminate]. cbn in H. injection H as <- <-.
    split; [|intros j Hj; cbn in Hj; lia].
    assert (Q : length y = a_dimy o /\ o1 = a_put 1 y o /\ (1 < a_nf o)%nat /\ a_nf (a_put 1 y o) = a_nf o /\ a_get 1 (a_put 1 y o) = y /\
      forall f, f <> 1%nat -> a_get f (a_put 1 y o) = a_get f o).
    { unfold a_set_attr in E. destruct o as [s|c|s|s|s]; try discriminate; destruct (Nat.eqb_spec (length y) (a_dimy (AE s))) as [L|L] || destruct (Nat.eqb_spec (length y) (a_dimy (AD s))) as [L|L];
        try discriminate; (split; [exact L|]); (split; [congruence|]); (split; [cbn; lia|]); (split; [reflexivity|]); (split; [reflexivity|]); intros f Hf; destruct f as [|[|f]]; trivial; lia. }
    destruct Q as (L & -> & Q1 & Q2 & Q3 & Q4). intros f Hf. rewrite Q2 in Hf. cbn [a_binds sys_keeps].
    destruct (Nat.eq_dec f 1) as [->|N].
    + split; [|intros k off len Q; injection Q as <- _ _; now left]. rewrite Q3. split; [cbn; lia|]. cbn [nth]. rewrite <- L. split; [lia|]. symmetry. now apply slice_all.
    + rewrite (Q4 f N). destruct f as [|[|f]]; try lia; (split; [now apply keep_src|discriminate]).
  - destruct args as [|v [|]]; try discriminate. destruct (a_set_par g v o) as [o1|] eqn:E; [|discriminate]. cbn in H. injection H as <- <-.
    split; [|intros j Hj; cbn in Hj; lia].
    assert (Q : (g < a_nf o)%nat /\ a_nf o1 = a_nf o /\ a_get g o1 = v /\ forall f, (f < a_nf o)%nat -> f <> g -> a_get f o1 = a_get f o).
    { unfold a_set_par in E. destruct o as [s|c|s|s|s]; destruct g as [|[|[|[|[|[|g]]]]]]; try discriminate; injection E as <-; cbn;
        (split; [lia|]); (split; [reflexivity|]); (split; [reflexivity|]); intros f Hf; destruct f as [|[|[|[|[|[|f]]]]]]; trivial; lia. }
    destruct Q as (Q1 & Q2 & Q3 & Q4). intros f Hf. rewrite Q2 in Hf. cbn [a_binds sys_keeps]. destruct (Nat.eqb_spec f g) as [->|N].
    + split; [|intros k off len Q; injection Q as <- _ _; now left]. rewrite Q3. split; [cbn; lia|]. cbn [nth]. split; [lia|]. symmetry. now apply slice_all.
    + rewrite (Q4 f Hf N). split; [now apply keep_src|discriminate].
  - destruct args; [|discriminate]. injection H as <- <-. split; [|intros j Hj; cbn in Hj; lia].
    intros f Hf. unfold a_binds. assert (Dp : forall p n, pget (decouple n p) = pget p \/ decoupled p = New) by (intros [r|l] n; cbn; auto).
    assert (Src : forall p n, (f < a_nf o)%nat -> pget p = a_get f o -> src (Some o) [] (decoupled p) f (pget (decouple n p)) /\ forall k off len, decoupled p = Arg k off len -> In k (sys_keeps ADecouple o)).
    { intros p n F G. destruct p; cbn; (split; [try exact I|discriminate]). exact (conj F G). }
    destruct o as [s|c|s|s|s]; destruct f as [|[|[|[|[|[|f]]]]]]; cbn in Hf; try lia; try (split; [now apply keep_src|discriminate]); now apply Src.
  - destruct args; [|discriminate]. injection H as <- <-. unfold get_x_init.
    apply (getter_fine _ _ 0 (a_dimx o)); [apply nf_pos|reflexivity|reflexivity|now left|now rewrite init_get|].
    rewrite (init_get o). f_equal. symmetry. now apply slice_all.
  - destruct args; [|discriminate]. injection H as <- <-. unfold get_y_init.
    apply (getter_fine _ _ 0 (min (a_dimy o) (a_dimx o))); [apply nf_pos|reflexivity|reflexivity|now left|rewrite init_get; unfold a_dimx; lia|].
    rewrite (init_get o). f_equal. unfold slice. cbn [skipn]. unfold a_dimx. rewrite <- firstn_firstn. now rewrite firstn_all.
  - destruct args; [|destruct o; discriminate].
    assert (Q : o' = o /\ rs = [a_get 1 o] /\ (1 < a_nf o)%nat) by (destruct o; try discriminate; injection H as <- <-; cbn; (split; [reflexivity|]); (split; [reflexivity|]); lia).
    destruct Q as (-> & -> & Q). apply (getter_fine _ _ 1 (length (a_get 1 o))); trivial; [now left|]. f_equal. symmetry. now apply slice_all.
  - destruct args; [|discriminate]. unfold a_start, integrate_start in H. destruct (a_rate o (a_init o)) as [xd|]; [|discriminate]. cbn in H. injection H as <- <-. split.
    + intros f Hf. rewrite touch_nf in Hf. split; [apply keep_src; [exact Hf|apply touch_get]|discriminate].
    + intros [|j] Hj; cbn [a_rets]; [|now rewrite nth_one_new]. cbn [nth]. split; [now left|]. rewrite touch_nf, touch_get, touch_dim, init_get. split; [apply nf_pos|]. split; [unfold a_dimx; lia|]. symmetry. now apply slice_all.
  - destruct args as [|y [|]]; try discriminate. destruct (a_set_y y o) as [o1|] eqn:E; [|discriminate]. cbn [bind] in H.
    unfold a_start, integrate_start in H. destruct (a_rate o1 (a_init o1)) as [xd|]; [|discriminate]. cbn in H. injection H as <- <-.
    apply set_y_get in E. destruct E as (x & -> & L & K). destruct (with_init_get x o) as (G0 & G1 & G2). split.
    + intros f Hf. rewrite touch_nf, G1 in Hf. rewrite touch_get. destruct f as [|f]; cbn [a_binds sys_keeps].
      * destruct o; try (split; [exact I|discriminate]). split; [|intros k off len Q; injection Q as <- _ _; now left]. rewrite G0. subst x. split; [cbn; lia|]. cbn [nth]. rewrite <- L. split; [lia|]. symmetry. now apply slice_all.
      * split; [|discriminate]. apply keep_src; [exact Hf|]. apply G2. lia.
    + intros [|j] Hj; cbn [a_rets]; [|now rewrite nth_one_new]. cbn [nth]. split; [now left|]. rewrite touch_nf, touch_get, touch_dim. unfold a_dimx. rewrite <- (init_get (a_with_init x o)), G0, G1. split; [apply nf_pos|].
      split; [lia|]. symmetry. now apply slice_all.
  - destruct args as [|x [|]]; try discriminate. destruct (a_rate o x); [|discriminate]. cbn in H. injection H as <- <-. now apply touched_fine.
  - destruct args as [|x [|]]; try discriminate. destruct (a_solve o x) as [[xs xds]|]; [|discriminate]. cbn in H. injection H as <- <-. now apply touched_fine.
  - destruct args as [|x [|]]; try discriminate. destruct (int_step (a_rate o) (a_dimx o) m dt x) as [[x' xd]|]; [|discriminate]. cbn in H. injection H as <- <-. now apply touched_fine.
  - destruct args as [|x [|]]; try discriminate. destruct (integrate (a_rate o) (a_dimx o) m (a_init o) x) as [[xs xds]|]; [|discriminate]. cbn in H. injection H as <- <-. now apply touched_fine.
Qed.
Lemma systems_described : described systems sys_keeps sys_shares.
Proof.
  constructor.
  - intros f o _. apply sys_put.
  - intros c o args o' rs H. exact (sys_fine c o args o' rs H).
Qed.

(** ** constructors *)
Lemma ctor_fine c args o : construct c args = Ok o ->
  forall f, (f < a_nf o)%nat -> src None args (c_binds c args f) f (a_get f o) /\ forall k off len, c_binds c args f = Arg k off len -> In k (ctor_keeps c).
Proof.
  intros H.
  assert (Par : forall p f l, cin args p = true -> incl (arrays [p]) l -> src None args (csource args p) f (pget (cpar args p)) /\ forall k off len, csource args p = Arg k off len -> In k l).
  { intros [r|k] f l Hc Hi; cbn; [split; [exact I|discriminate]|]. cbn in Hc. apply Nat.ltb_lt in Hc. split.
    - split; [exact Hc|]. split; [lia|]. symmetry. now apply slice_all.
    - intros k' off len Q. injection Q as <- _ _. apply Hi. now left. }
  assert (One : forall f l, (2 <=? length args)%nat = true -> src None args (Arg 1 0 (length (nth 1 args []))) f (nth 1 args []) /\ forall k off len, Arg 1 0 (length (nth 1 args [])) = Arg k off len -> In k (1%nat :: l)).
  { intros f l Hl. apply Nat.leb_le in Hl. split; [|intros k off len Q; injection Q as <- _ _; now left]. split; [lia|]. split; [lia|]. symmetry. now apply slice_all. }
  assert (Nw : forall f v l, src None args New f v /\ forall k off len, New = Arg k off len -> In k l) by (intros f v l; split; [exact I|discriminate]).
  assert (Inc : forall p l1 l2, incl (arrays [p]) (1%nat :: arrays (l1 ++ p :: l2)) /\ incl (arrays [p]) (arrays (l1 ++ p :: l2))).
  { intros p l1 l2. assert (Q : incl (arrays [p]) (arrays (l1 ++ p :: l2))).
    { intros k Hk. unfold arrays in *. apply in_flat_map. apply in_flat_map in Hk. destruct Hk as (q & [<-|[]] & Hk). exists p. split; [apply in_or_app; right; now left|exact Hk]. }
    split; [|exact Q]. intros k Hk. right. now apply Q. }
  destruct c as [tau alpha|tau rate infl|tau infl alpha v|tau down|tau damp spring mass]; cbn [construct] in H; cbv zeta in H.
  - destruct ((2 <=? length args)%nat && cin args alpha)%bool eqn:E; [|discriminate]. apply andb_prop in E. destruct E as [E1 E2].
    replace o with (AE (Esys tau (nth 0 args []) (nth 1 args []) (cpar args alpha))) by congruence. intros f Hf.
    destruct f as [|[|[|f]]]; cbn [c_binds a_get e_init e_attr e_alpha ctor_keeps]; [apply Nw|apply One; exact E1| |cbn in Hf; lia].
    apply Par; [exact E2|]. apply (Inc alpha [] []).
  - destruct ((1 <=? length args)%nat && cin args rate && cin args infl)%bool eqn:E; [|discriminate].
    apply andb_prop in E. destruct E as [E E3]. apply andb_prop in E. destruct E as [E1 E2].
    replace o with (AS (Csys (Ssys tau (nth 0 args []) (cpar args rate) (cpar args infl)) None)) by congruence. intros f Hf.
    destruct f as [|[|[|f]]]; cbn [c_binds a_get c_sys g_init g_rate g_infl ctor_keeps]; [apply Nw| | |cbn in Hf; lia]; (apply Par; [assumption|]).
    + apply (Inc rate [] [infl]).
    + apply (Inc infl [rate] []).
  - destruct ((2 <=? length args)%nat && cin args infl && cin args alpha && cin args v)%bool eqn:E; [|discriminate].
    apply andb_prop in E. destruct E as [E E4]. apply andb_prop in E. destruct E as [E E3]. apply andb_prop in E. destruct E as [E1 E2].
    replace o with (AR (Rsys tau (nth 0 args []) (PVec (nth 1 args [])) (cpar args infl) (cpar args alpha) (cpar args v) None)) by congruence. intros f Hf.
    destruct f as [|[|[|[|[|[|f]]]]]]; cbn [c_binds a_get h_init h_right h_infl h_alpha h_v h_left pget ctor_keeps]; [apply Nw|apply One; exact E1| | | |apply Nw|cbn in Hf; lia]; (apply Par; [assumption|]).
    + apply (Inc infl [] [alpha; v]).
    + apply (Inc alpha [infl] [v]).
    + apply (Inc v [infl; alpha] []).
  - replace o with (AT (new_time tau down)) by congruence. intros f Hf. apply Nw.
  - destruct ((2 <=? length args)%nat && cin args damp && match spring with Some k => cin args k | None => true end && cin args mass)%bool eqn:E; [|discriminate].
    apply andb_prop in E. destruct E as [E E4]. apply andb_prop in E. destruct E as [E E3]. apply andb_prop in E. destruct E as [E1 E2].
    replace o with (AD (new_spring tau (nth 0 args []) (nth 1 args []) (cpar args damp) (option_map (cpar args) spring) (cpar args mass))) by congruence. intros f Hf.
    destruct spring as [k|]; destruct f as [|[|[|[|[|f]]]]]; cbn [c_binds a_get new_spring d_init d_attr d_damp d_spring d_mass ctor_keeps option_map];
      try apply Nw; try (apply One; exact E1); try (cbn in Hf; lia); (apply Par; [assumption|]).
    + apply (Inc damp [] [mass; k]).
    + apply (Inc k [damp; mass] []).
    + apply (Inc mass [damp] [k]).
    + apply (Inc damp [] [mass]).
    + apply (Inc mass [damp] []).
Qed.

(** ** Theorem: careful programs *)
Theorem careful_systems c args es : careful_system c args es -> run_system c args es = by_value_system c args es.
Proof.
  unfold careful_system, run_system, by_value_system. destruct (construct c args) as [o|e] eqn:E; [|reflexivity]. intros H. cbn [bind]. f_equal.
  apply (run_careful systems sys_keeps sys_shares systems_described o args (c_binds c args) (ctor_keeps c)); [|exact H].
  exact (ctor_fine c args o E).
Qed.
