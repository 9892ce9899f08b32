(** C64: altes for all Python numbers. *)
From Coq Require Import Reals ZArith List Lia Lra Bool.
From Coquelicot Require Import Coquelicot.
From Flocq Require Import Core.
From Verif Require Import Py Scalars CSum DFT M_base M_utils M_putils M_dom M_gen1 M_gen2 M_gen3 M_over M_ext M_alt P_base T_utils T_putils T_dom T_gen1 T_gen2 T_misc2.
Import ListNotations.
Local Open Scope Z_scope.

Lemma xsum_nan l : In NaN l -> xsum l = NaN.
Proof.
  induction l as [|a l IH]; [intros []|]. intros [->|H]; [reflexivity|]. unfold xsum in *. cbn [fold_right]. rewrite (IH H). now destruct a.
Qed.
Lemma xsum_fin (l : list R) : xsum (map Fin l) = Fin (rsum l (fun v => v)).
Proof.
  induction l as [|a l IH]; [reflexivity|]. unfold xsum, rsum in *. cbn [map fold_right]. now rewrite IH.
Qed.
Lemma repeat_map_arange {A} (v : A) n : map (fun _ : Z => v) (arange 0 n) = repeat v (Z.to_nat n).
Proof.
  destruct (Z_le_gt_dec n 0) as [H|H]; [rewrite arange_empty by lia; now replace (Z.to_nat n) with 0%nat by lia|].
  apply (nth_ext _ _ v v); [rewrite map_length, arange_length, repeat_length; lia|]. intros k _.
  rewrite (map_nth (fun _ : Z => v) _ 0), nth_repeat. reflexivity.
Qed.
Lemma alt_nan n (F : xnum -> xnum) t1 t2 : 1 <= n -> xsub t2 t1 = NaN -> F NaN = NaN ->
  let x := map F (prefix (xlinspace t1 t2 (n + 1)) n) in
  map (fun v => xquot v (xsqrt (xsum (map xsq x)))) x = repeat NaN (Z.to_nat n).
Proof.
  intros Hn HT HF x.
  assert (EX : x = repeat NaN (Z.to_nat n)).
  { unfold x, prefix, xlinspace. rewrite HT. replace (Z.to_nat n) with (Z.to_nat (n - 0)) by lia.
    rewrite firstn_map_arange by lia. rewrite map_map, Z.sub_0_r, <- repeat_map_arange. apply map_ext_in. intros k Hk. apply in_arange in Hk.
    destruct (Z.eqb_spec k (n + 1 - 1)); [lia|]. cbn [andb]. cbn. exact HF. }
  rewrite EX. rewrite <- repeat_map_arange, map_map. apply map_ext. intros k. reflexivity.
Qed.
Lemma xsqrt_fin v : (0 <= v)%R -> xsqrt (Fin v) = Fin (sqrt v).
Proof. intros H. cbn. destruct (Rlt_dec v 0); [lra|reflexivity]. Qed.
Lemma xlog_fin v : (0 < v)%R -> xlog (Fin v) = Fin (ln v).
Proof. intros H. cbn. destruct (Rlt_dec v 0); [lra|]. destruct (Req_EM_T v 0); [lra|reflexivity]. Qed.
Lemma xquot_fin a v : v <> 0%R -> xquot (Fin a) (Fin v) = Fin (a / v).
Proof. intros H. cbn. unfold xdiv. destruct (Req_EM_T v 0); [lra|reflexivity]. Qed.
Lemma ln_ne_0 a : (0 < a)%R -> a <> 1%R -> ln a <> 0%R.
Proof. intros H H1 E. apply H1. rewrite <- (exp_ln a), E by lra. apply exp_0. Qed.

Lemma altes_abs n fmin fmax alpha : (0 < fmax / fmin)%R -> fmin <> 0%R -> altes n (Rabs fmin) (Rabs fmax) alpha = altes n fmin fmax alpha.
Proof.
  intros H H0. unfold altes. rewrite <- Rabs_div, <- Rabs_mult by auto. rewrite (Rabs_right (fmax / fmin)) by lra.
  rewrite (Rabs_right (fmin * fmax)); [reflexivity|]. replace (fmin * fmax)%R with (fmax / fmin * (fmin * fmin))%R by (field; auto).
  apply Rle_ge, Rmult_le_pos; [lra|nra].
Qed.

Lemma altes_x_fin n fmin fmax alpha : 1 <= n -> fmin <> 0%R -> (0 < fmax / fmin)%R -> (fmax / fmin <> 1)%R -> (0 < alpha)%R -> alpha <> 1%R ->
  altes_x n fmin fmax alpha = Ok (match altes n fmin fmax alpha with Some x => map Fin x | None => repeat NaN (Z.to_nat n) end).
Proof.
  intros Hn Hf Hr Hr1 Ha Ha1. unfold altes_x, altes. destruct (Req_EM_T fmin 0); [contradiction|].
  assert (LA := ln_ne_0 alpha Ha Ha1). assert (LQ := ln_ne_0 _ Hr Hr1).
  rewrite !xlog_fin by auto. set (la := ln alpha) in *. set (q := ln (fmax / fmin)) in *.
  cbv zeta. change (xsq (Fin q)) with (Fin (q * q)). cbn [xmul]. rewrite (xquot_fin (q * q)) by lra. cbn [xexp0]. replace (q * q)%R with (q ^ 2)%R by ring.
  rewrite xlog_fin by apply exp_pos. rewrite !ln_exp. set (lg := (q ^ 2 / (8 * la))%R). set (g := exp lg).
  assert (FP : (0 <= fmin * fmax)%R) by (replace (fmin * fmax)%R with (fmax / fmin * (fmin * fmin))%R by (field; auto); apply Rmult_le_pos; [lra|nra]).
  rewrite (xsqrt_fin (fmin * fmax)) by auto. cbn [xmul].
  assert (QP : (0 < q ^ 2)%R) by nra.
  assert (BE : (2 * lg * la = q ^ 2 / 4)%R) by (unfold lg; field; auto).
  assert (LG : lg <> 0%R) by (intros Z0; rewrite Z0 in BE; nra).
  rewrite (xsqrt_fin (2 * lg * la)) by lra. set (beta := sqrt (2 * lg * la)).
  assert (BP : (0 < beta)%R) by (apply sqrt_lt_R0; lra).
  cbn [xneg xexp0 xsub xadd]. set (eb := exp beta). set (em := exp (- beta)).
  assert (EM : (0 < em)%R) by apply exp_pos. assert (EL : (em < eb)%R) by (apply exp_increasing; lra).
  replace (eb + - em)%R with (eb - em)%R by ring. rewrite xquot_fin by lra. cbn [xmul xneg].
  set (t0 := (IZR n / (eb - em))%R). assert (T0 : (0 < t0)%R) by (apply Rdiv_lt_0_compat; [apply IZR_lt; lia|lra]).
  set (b := (- t0 * sqrt (fmin * fmax) * g * lg)%R).
  destruct (Z.ltb_spec (n + 1) 0); [lia|]. f_equal.
  set (F := fun t : R => (exp (- (ln (t / t0) ^ 2) / (2 * lg)) * cos (2 * PI * b * ln (t / t0) / lg))%R).
  match goal with |- map _ (map ?h _) = _ => set (G := h) end.
  assert (GF : forall t, (0 < t)%R -> G (Fin t) = Fin (F t)).
  { intros t Ht. unfold G, F. rewrite xquot_fin by lra. rewrite xlog_fin by (now apply Rdiv_lt_0_compat). unfold xsq. cbn [xmul xneg]. rewrite !xquot_fin by lra. cbn [xexp0 xcos xmul].
    replace (ln (t / t0) * ln (t / t0))%R with (ln (t / t0) ^ 2)%R by ring. reflexivity. }
  assert (EX : map G (prefix (xlinspace (Fin (t0 * em)) (Fin (t0 * eb)) (n + 1)) n) = map Fin (map F (prefix (linspace (t0 * em) (t0 * eb) (n + 1)) n))).
  { unfold prefix, xlinspace, linspace. cbn [xsub xneg xadd]. rewrite xquot_fin by (apply not_0_IZR; lia).
    replace (Z.to_nat n) with (Z.to_nat (n - 0)) by lia. rewrite !firstn_map_arange by lia. rewrite !map_map. apply map_ext_in. intros k Hk. apply in_arange in Hk.
    destruct (Z.eqb_spec k (n + 1 - 1)); [lia|]. cbn [andb xmul xadd]. replace (n + 1 - 1) with n by lia.
    replace (IZR k * ((t0 * eb + - (t0 * em)) / IZR n) + t0 * em)%R with (t0 * em + IZR k * ((t0 * eb - t0 * em) / IZR n))%R by (unfold Rdiv; ring).
    apply GF. assert (HN : (0 < IZR n)%R) by (apply IZR_lt; lia). assert (HK : (0 <= IZR k)%R) by (apply IZR_le; lia).
    apply Rplus_lt_le_0_compat; [nra|]. apply Rmult_le_pos; [auto|]. apply Rmult_le_pos; [nra|]. left. now apply Rinv_0_lt_compat. }
  rewrite EX. set (x := map F _). assert (XL : length x = Z.to_nat n).
  { unfold x, prefix, linspace. rewrite map_length, firstn_length, map_length, arange_length. lia. }
  assert (ES : xsum (map xsq (map Fin x)) = Fin (rsum x (fun v => v ^ 2)%R)).
  { rewrite map_map. unfold xsq. cbn [xmul]. rewrite <- (map_map (fun v => v * v)%R Fin), xsum_fin, rsum_map. f_equal. apply rsum_ext. intros v _. ring. }
  rewrite ES, xsqrt_fin by (apply rsum_nonneg; intros; apply pow2_ge_0). unfold unit_norm. fold (rnorm x). rewrite map_map.
  destruct (Req_EM_T (rnorm x) 0) as [Z0|NZ].
  - assert (E0 : rsum x (fun v => v ^ 2)%R = 0%R).
    { unfold rnorm in Z0. apply sqrt_eq_0; [apply rsum_nonneg; intros; apply pow2_ge_0|exact Z0]. }
    rewrite <- XL. assert (AZ : forall v, In v x -> v = 0%R).
    { intros v Hv. assert (Q := rsum_nonneg_0 x (fun v => v ^ 2)%R (fun v _ => pow2_ge_0 v) E0 v Hv). cbn in Q. nra. }
    rewrite Z0. clear - AZ. induction x as [|v x IH]; [reflexivity|]. cbn [map length repeat]. rewrite IH by (intros; apply AZ; now right). f_equal.
    rewrite (AZ v) by now left. cbn. unfold xdiv. destruct (Req_EM_T 0 0); [reflexivity|lra].
  - rewrite map_map. apply map_ext. intros v. now apply xquot_fin.
Qed.

Definition nan_args (fmin fmax alpha : R) : Prop := (fmax / fmin <= 0)%R \/ (fmax / fmin = 1)%R \/ (alpha <= 0)%R \/ alpha = 1%R.
Lemma alt_beta n fmin fmax alpha : 1 <= n -> fmin <> 0%R ->
  let la := xlog (Fin alpha) in
  let g := xexp0 (xquot (xsq (xlog (Fin (fmax / fmin)))) (xmul (Fin 8) la)) in
  let lg := xlog g in
  let beta := xsqrt (xmul (xmul (Fin 2) lg) la) in
  let t0 := xquot (Fin (IZR n)) (xsub (xexp0 beta) (xexp0 (xneg beta))) in
  xsub (xmul t0 (xexp0 beta)) (xmul t0 (xexp0 (xneg beta))) = NaN -> altes_x n fmin fmax alpha = Ok (repeat NaN (Z.to_nat n)).
Proof.
  intros Hn Hf la g lg beta t0 H. unfold altes_x. destruct (Req_EM_T fmin 0); [contradiction|]. fold la. fold g. fold lg. fold beta. fold t0.
  destruct (Z.ltb_spec (n + 1) 0); [lia|]. cbv zeta. f_equal. apply alt_nan; [auto|exact H|reflexivity].
Qed.
Ltac dec := repeat match goal with
  | |- context [Rlt_dec ?a ?b] => destruct (Rlt_dec a b); try lra
  | |- context [Req_EM_T ?a ?b] => destruct (Req_EM_T a b); try lra end.
Lemma altes_x_nan n fmin fmax alpha : 1 <= n -> fmin <> 0%R -> nan_args fmin fmax alpha ->
  altes_x n fmin fmax alpha = Ok (repeat NaN (Z.to_nat n)).
Proof.
  intros Hn Hf H. apply alt_beta; auto. assert (HN : (0 < IZR n)%R) by (apply IZR_lt; lia).
  destruct (Rlt_dec (fmax / fmin) 0) as [RN|RN].
  { cbn. destruct (Rlt_dec (fmax / fmin) 0); [reflexivity|lra]. }
  destruct (Rlt_dec alpha 0) as [AN|AN].
  { replace (xlog (Fin alpha)) with NaN by (cbn; destruct (Rlt_dec alpha 0); [reflexivity|lra]). destruct (xsq (xlog (Fin (fmax / fmin)))); reflexivity. }
  destruct (Req_EM_T alpha 0) as [A0|A0].
  { subst alpha. replace (xlog (Fin 0)) with (Inf true) by (cbn; dec; reflexivity).
    replace (xmul (Fin 8) (Inf true)) with (Inf true) by (cbn; unfold negb_of; dec; reflexivity).
    destruct (xsq (xlog (Fin (fmax / fmin)))) as [v|s|]; [|reflexivity|reflexivity].
    replace (xlog (xexp0 (xquot (Fin v) (Inf true)))) with (Fin 0) by (cbn; rewrite exp_0; dec; now rewrite ln_1).
    cbn. rewrite Rmult_0_r. dec. reflexivity. }
  destruct (Req_EM_T alpha 1) as [A1|A1].
  { subst alpha. rewrite (xlog_fin 1), ln_1 by lra. replace (xmul (Fin 8) (Fin 0)) with (Fin 0) by (cbn; now rewrite Rmult_0_r).
    assert (BN : forall X, xsqrt (xmul (xmul (Fin 2) (xlog (xexp0 (xquot X (Fin 0))))) (Fin 0)) = NaN).
    { assert (EI : forall s, xsqrt (xmul (xmul (Fin 2) (xlog (xexp0 (Inf s)))) (Fin 0)) = NaN).
      { intros []; cbn; unfold negb_of; dec; cbn; dec; reflexivity. }
      intros [v|s|]; [|apply EI|reflexivity]. cbn [xquot]. unfold xdiv. destruct (Req_EM_T 0 0); [|lra]. destruct (Req_EM_T v 0); [reflexivity|apply EI]. }
    rewrite BN. reflexivity. }
  assert (LA : ln alpha <> 0%R) by (apply ln_ne_0; lra). rewrite (xlog_fin alpha) by lra. change (xmul (Fin 8) (Fin (ln alpha))) with (Fin (8 * ln alpha)).
  destruct (Req_EM_T (fmax / fmin) 0) as [R0|R0].
  { rewrite R0. replace (xsq (xlog (Fin 0))) with (Inf false) by (cbn; dec; reflexivity).
    change (xquot (Inf false) (Fin (8 * ln alpha))) with (Inf (xorb false (negb_of (8 * ln alpha)))). set (s := xorb false (negb_of (8 * ln alpha))).
    assert (EB : xsqrt (xmul (xmul (Fin 2) (xlog (xexp0 (Inf s)))) (Fin (ln alpha))) = Inf false).
    { unfold s. cbn [xorb]. unfold negb_of. destruct (Rlt_dec (8 * ln alpha) 0); cbn; unfold negb_of; dec; cbn; dec; cbn; unfold negb_of; dec; reflexivity. }
    rewrite EB. cbn. rewrite Rmult_0_l. dec. reflexivity. }
  assert (R1 : (fmax / fmin = 1)%R) by (destruct H as [H|[H|[H|H]]]; lra).
  rewrite R1, xlog_fin, ln_1 by lra. unfold xsq. cbn [xmul]. rewrite Rmult_0_l, xquot_fin by lra. replace (0 / (8 * ln alpha))%R with 0%R by (field; auto).
  cbn [xexp0]. rewrite exp_0, xlog_fin, ln_1 by lra. cbn [xmul]. replace (2 * 0 * ln alpha)%R with 0%R by ring. rewrite xsqrt_fin, sqrt_0 by lra.
  cbn. replace (- 0)%R with 0%R by ring. rewrite exp_0. unfold xdiv. dec. cbn. unfold negb_of. dec. reflexivity.
Qed.

Lemma c64_altes_all : forall n fmin fmax alpha,
  (fmin = 0%R -> altes_x n fmin fmax alpha = Raise ZeroDivisionError) /\
  (fmin <> 0%R -> n < -1 -> altes_x n fmin fmax alpha = Raise ValueError) /\
  (fmin <> 0%R -> -1 <= n <= 0 -> altes_x n fmin fmax alpha = Ok []) /\
  (fmin <> 0%R -> 1 <= n -> (fmax / fmin <= 0 \/ fmax = fmin \/ alpha <= 0 \/ alpha = 1)%R ->
    altes_x n fmin fmax alpha = Ok (repeat NaN (Z.to_nat n))) /\
  (fmin <> 0%R -> 1 <= n -> (0 < fmax / fmin)%R -> fmax <> fmin -> (0 < alpha)%R -> alpha <> 1%R ->
    altes_x n fmin fmax alpha = Ok (match altes n (Rabs fmin) (Rabs fmax) alpha with Some x => map Fin x | None => repeat NaN (Z.to_nat n) end)).
Proof.
  intros n fmin fmax alpha. split; [|split; [|split; [|split]]].
  - intros ->. unfold altes_x. dec. reflexivity.
  - intros Hf Hn. unfold altes_x. destruct (Req_EM_T fmin 0); [contradiction|]. destruct (Z.ltb_spec (n + 1) 0); [reflexivity|lia].
  - intros Hf Hn. unfold altes_x. destruct (Req_EM_T fmin 0); [contradiction|]. destruct (Z.ltb_spec (n + 1) 0); [lia|]. unfold prefix. replace (Z.to_nat n) with 0%nat by lia. reflexivity.
  - intros Hf Hn H. apply altes_x_nan; auto. unfold nan_args. destruct H as [H|[->|[H|H]]]; auto. right. left. field. auto.
  - intros Hf Hn Hr Hne Ha Ha1. rewrite altes_abs by auto. apply altes_x_fin; auto. intros E. apply Hne. apply (f_equal (Rmult fmin)) in E. replace (fmin * (fmax / fmin))%R with fmax in E by (field; auto). lra.
Qed.
(** Negative bounds give the waveform of their opposites: unit energy, real numbers. *)
Lemma c64_altes_negative : forall n fmin fmax alpha, 1 <= n -> (0 < fmin)%R -> (0 < fmax)%R -> fmin <> fmax -> (0 < alpha)%R -> alpha <> 1%R ->
  altes_x n (- fmin) (- fmax) alpha = altes_x n fmin fmax alpha.
Proof.
  intros n fmin fmax alpha Hn H1 H2 Hne Ha Ha1. destruct (c64_altes_all n (- fmin) (- fmax) alpha) as (_ & _ & _ & _ & A). destruct (c64_altes_all n fmin fmax alpha) as (_ & _ & _ & _ & B).
  assert (RP : (0 < fmax / fmin)%R) by (now apply Rdiv_lt_0_compat).
  rewrite A, B by (auto; try lra; replace (- fmax / - fmin)%R with (fmax / fmin)%R by (field; lra); auto). now rewrite !Rabs_Ropp.
Qed.
Example c64_altes_nan_example : altes_x 2 (1 / 10) (1 / 10) 300 = Ok [NaN; NaN] /\ altes_x 2 (1 / 10) 0 300 = Ok [NaN; NaN] /\
  altes_x 3 0 (1 / 10) 300 = Raise ZeroDivisionError /\ altes_x 1 (1 / 10) (2 / 5) 1 = Ok [NaN] /\ altes_x 0 (1 / 10) (2 / 5) 1 = Ok [].
Proof.
  destruct (c64_altes_all 2 (1 / 10) (1 / 10) 300) as (_ & _ & _ & A & _). destruct (c64_altes_all 2 (1 / 10) 0 300) as (_ & _ & _ & B & _).
  destruct (c64_altes_all 3 0 (1 / 10) 300) as (C & _). destruct (c64_altes_all 1 (1 / 10) (2 / 5) 1) as (_ & _ & _ & D & _). destruct (c64_altes_all 0 (1 / 10) (2 / 5) 1) as (_ & _ & E & _).
  rewrite A, B, C, D, E by (try lia; lra). repeat split; reflexivity.
Qed.
