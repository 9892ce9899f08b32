(** C131: more programs of the gallery. *)
From Coq Require Import Reals ZArith List Lia Lra Bool.
From Coquelicot Require Import Coquelicot.
From Flocq Require Import Core.
From Verif Require Import Py Scalars CSum DFT Spec M_base M_stft M_cohen M_amb M_reas M_post M_dom M_gen1 M_gen2 M_gen3 M_gabor M_aff M_wb M_gallery M_gallery2 M_plot
  P_base P_wvd T_wvd T_gen1 T_gen2 T_misc T_misc2 T_gabor T_hil T_aff T_aff3 T_noise T_amb T_stft T_spec T_pwvd T_reas T_reas2 T_post T_post3 T_plot T_plot4 T_dom T_wb T_gallery.
Import ListNotations.
Local Open Scope Z_scope.

Lemma gallery_windows : gabor_refuses 256 16 1 33 = None /\ gabor_refuses 256 32 4 33 = None.
Proof.
  assert (A : ZnearestE (IZR (256 - (33 - 1)) / 2) = 112) by (replace (IZR (256 - (33 - 1)) / 2)%R with (IZR 112) by (cbn; lra); apply (Zrnd_IZR ZnearestE)).
  assert (B : win_first 256 16 1 33 = 112).
  { unfold win_first. rewrite A. replace ((2 * 256 / 16 - 1 - 33) / IZR (2 * 1))%R with (IZR (-1)) by (cbn; lra). rewrite (Zrnd_IZR ZnearestE). reflexivity. }
  assert (B' : win_first 256 32 4 33 = 113).
  { unfold win_first. rewrite A. rewrite (Znearest_imp _ ((2 * 256 / 32 - 1 - 33) / IZR (2 * 4))%R (-2)); [reflexivity|]. apply Rabs_def1; cbn; lra. }
  unfold gabor_refuses. rewrite B, B'. split; reflexivity.
Qed.
Lemma c131_gabor : forall w, zlen w = 33 ->
  (exists tfr dgr gam, gabor_chirp 256 16 1 w = Ok (tfr, dgr, gam) /\ zlen dgr = 16 /\ (forall c, In c dgr -> zlen c = 16) /\ zlen gam = 256) /\
  (exists tfr dgr gam, gabor_chirp 256 32 4 w = Ok (tfr, dgr, gam) /\ zlen dgr = 32 /\ (forall c, In c dgr -> zlen c = 32) /\ zlen gam = 256).
Proof.
  intros w LW. assert (A0 : (Rabs 0 <= 1 / 2)%R) by (rewrite Rabs_R0; lra). assert (A1 : (Rabs (1 / 2) <= 1 / 2)%R) by (rewrite Rabs_right; lra).
  destruct (chirp_ok 256 0 (1 / 2) ltac:(lia) A0 A1) as (x & l & E & L & _). unfold gabor_chirp. rewrite E. cbn [bind]. split.
  - assert (O := c72_outcome x 16 1 w ltac:(lia) ltac:(lia) ltac:(lia)). cbv zeta in O. rewrite L, LW in O. rewrite (proj1 gallery_windows) in O. cbv iota in O.
    destruct O as (tfr & dgr & gam & EG & L1 & L2 & _ & L3). exists tfr, dgr, gam. repeat split; auto.
  - assert (O := c72_outcome x 32 4 w ltac:(lia) ltac:(lia) ltac:(lia)). cbv zeta in O. rewrite L, LW in O. rewrite (proj2 gallery_windows) in O. cbv iota in O.
    destruct O as (tfr & dgr & gam & EG & L1 & L2 & _ & L3). exists tfr, dgr, gam. repeat split; auto.
Qed.

Lemma exp_half_le : (exp (1 / 2) <= 7 / 4)%R.
Proof.
  assert (H : (exp (1 / 2) * exp (1 / 2) = exp 1)%R) by (rewrite <- exp_plus; f_equal; lra). assert (B := exp_le_3). assert (P := exp_pos (1 / 2)). nra.
Qed.
Lemma exp_half_ge : (3 / 2 <= exp (1 / 2))%R.
Proof. assert (H := exp_ineq1 (1 / 2) ltac:(lra)). lra. Qed.
Lemma ratio22 : (22 <= exp 4)%R /\ (5 / 2 <= ln 22)%R.
Proof.
  assert (E2 : forall a, exp (a + a) = (exp a * exp a)%R) by (intros; apply exp_plus). split.
  - replace 4%R with (2 + 2)%R by lra. rewrite E2. replace 2%R with (1 + 1)%R by lra. rewrite E2. replace 1%R with (1 / 2 + 1 / 2)%R by lra. rewrite E2.
    assert (H := exp_half_ge). set (a := exp (1 / 2)) in *. assert (A : (9 / 4 <= a * a)%R) by nra. set (b := (a * a)%R) in *. assert (B : (5 <= b * b)%R) by nra. nra.
  - assert (H : (exp (5 / 2) <= 22)%R).
    { replace (5 / 2)%R with (1 + 1 + 1 / 2)%R by lra. rewrite !exp_plus. assert (B := exp_le_3). assert (P := exp_pos 1). assert (Q := exp_half_le). assert (P' := exp_pos (1 / 2)).
      assert (exp 1 * exp 1 <= 9)%R by nra. assert (0 < exp 1 * exp 1)%R by nra. nra. }
    rewrite <- (ln_exp (5 / 2)). apply Rcomplements.ln_le; [apply exp_pos|exact H].
Qed.

(** The default number of voices of Bertrand and any number of voices of all three:
    the run returns, with the frequencies between 0.01 and 0.22. *)
Lemma c131_affine : forall spl k n degree, (forall u v w, zlen (spl u v w) = zlen w) -> 68 <= n -> degree <> 1%R ->
  (forall nv, 2 <= nv -> exists tfr, affine_gd spl true k n degree (1 / 100) (22 / 100) (Some nv) = Ok (Some (tfr, arange 0 n, geo_grid (1 / 100) (22 / 100) nv))) /\
  (k = Bert -> exists nv tfr, 2 <= nv /\ affine_gd spl true k n degree (1 / 100) (22 / 100) None = Ok (Some (tfr, arange 0 n, geo_grid (1 / 100) (22 / 100) nv))).
Proof.
  intros spl k n degree HS Hn HD. destruct (c66_gdpower n degree 1 ltac:(lia) ltac:(lra) HD) as (x & gpd & nu & E & L & _).
  destruct ratio22 as [R1 R2]. assert (RR : (22 / 100 / (1 / 100) = 22)%R) by lra. assert (F : (0 < 1 / 100 < 22 / 100)%R) by lra.
  assert (B := c70_outcome k x (1 / 100)%R (22 / 100)%R ltac:(lia) F). cbv zeta in B. rewrite L, RR in B. destruct B as (_ & _ & BC & _ & BE).
  destruct (half_len_spec n ltac:(lia)) as [HL1 HL2].
  assert (ROOT := aff_root_pos k 22 ltac:(lra)). assert (SZ := size_spec k n (22 / 100)%R (aff_root k 22) ltac:(lia) ltac:(lra)). destruct SZ as [SZ1 _].
  assert (RUN : forall nv o, aff_new k x None (Some (1 / 100)%R) (Some (22 / 100)%R) nv = Ok o -> 2 <= a_nv o -> a_ts o = arange 0 n -> half_len n <= a_m1 o ->
    exists tfr, aff_run spl true o = Ok (tfr, arange 0 n, geo_grid (1 / 100) (22 / 100) (a_nv o))).
  { intros nv o EO HV HT HM. assert (O := c89_outcome spl true k x None (1 / 100)%R (22 / 100)%R nv o HS ltac:(lia) F EO HV). rewrite HT, arange_zlen, RR in O.
    specialize (O ltac:(lia) (fun _ => eq_refl)). destruct (Rlt_dec (IZR (2 * a_m1 o - 1)) (3 * 22)) as [C|C]; [|exact O].
    exfalso. replace (3 * 22)%R with (IZR 66) in C by lra. apply lt_IZR in C. lia. }
  split.
  - intros nv Hnv. destruct (BE ltac:(intros; lra) nv) as (o & EO & NV & M1).
    assert (HT : a_ts o = arange 0 n).
    { unfold aff_new in EO. rewrite L in EO. cbn [affine_band bind] in EO. match type of EO with context [umax_of ?a ?b] => destruct (umax_of a b) end; cbn [bind] in EO; [|discriminate]. match type of EO with context [aff_size ?a ?b ?c ?d] => destruct (aff_size a b c d) as [[m T]|] end; cbn [bind] in EO; [|discriminate]. injection EO as <-. reflexivity. }
    assert (HM : half_len n <= a_m1 o) by (rewrite M1; destruct (Rlt_dec _ _) as [Q|Q]; [destruct (SZ1 Q) as (_ & _ & G); lia|lia]).
    destruct (RUN _ o EO ltac:(lia) HT HM) as (tfr & ER). exists tfr. unfold affine_gd. rewrite E. cbn [bind]. rewrite EO. cbn [bind]. rewrite ER, NV. reflexivity.
  - intros ->. assert (Q : (IZR (half_len n) < IZR (aff_bound Bert n) * (22 / 100 * aff_root Bert 22))%R).
    { cbn [aff_bound aff_root]. assert (IZR n <= 2 * IZR (half_len n) <= IZR n + 1)%R by (rewrite <- mult_IZR, <- plus_IZR; split; apply IZR_le; lia). assert (68 <= IZR n)%R by (apply IZR_le; lia). nra. }
    destruct (BC ltac:(intros; lra) Q ltac:(discriminate)) as (o & EO & M1 & _ & _ & _ & HT & _ & _ & e & He & NV & _). destruct (SZ1 Q) as (_ & _ & G).
    assert (V2 : 2 <= 2 ^ e) by (change 2 with (2 ^ 1) at 1; apply Z.pow_le_mono_r; lia).
    destruct (RUN _ o EO ltac:(lia) HT ltac:(rewrite M1; lia)) as (tfr & ER). exists (a_nv o), tfr. split; [lia|]. unfold affine_gd. rewrite E. cbn [bind]. rewrite EO. cbn [bind]. rewrite ER. reflexivity.
Qed.

Lemma c131_wideband : forall n f1 f2 alpha fmin fmax N, 2 <= n -> (0 < f1 < f2)%R -> (0 < alpha)%R -> alpha <> 1%R -> (0 < fmin < fmax)%R -> (fmax <= 1 / 2)%R -> 2 <= N ->
  wide_altes n f1 f2 alpha fmin fmax N = Ok None \/
  exists w tau theta, wide_altes n f1 f2 alpha fmin fmax N = Ok (Some (w, tau, theta)) /\ zlen w = n /\ (forall col, In col w -> zlen col = N) /\
    zlen tau = n /\ rnth theta 0 = (- ln (fmax / fmin))%R /\ rnth theta (N - 1) = ln (fmax / fmin).
Proof.
  intros n f1 f2 alpha fmin fmax N Hn H1 H2 H3 H4 H5 H6. unfold wide_altes. destruct (c64_altes n f1 f2 alpha ltac:(lia) H1 H2 H3) as [A B].
  destruct (Req_EM_T (rsum (arange 0 n) (fun k => (altes_env n f1 f2 alpha (IZR k) * cos (altes_phase n f1 f2 alpha (IZR k))) ^ 2)%R) 0) as [Z|Z]; [rewrite (A Z); auto|].
  destruct (B Z) as (x & E & L & _). rewrite E. set (y := map RtoC x). assert (LY : zlen y = n) by (unfold y; now rewrite zlen_map).
  destruct (hilbert (map Re y)) as [z|e] eqn:EH.
  - destruct (c85_value y z fmin fmax N ltac:(lia) H4 H5 H6 EH) as [V1 V2]. set (c := cross z fmin fmax N _ _) in *. destruct (Ceq_dec c (RtoC 0)) as [Q|Q]; [left; auto|right].
    destruct (V2 Q) as (w & tau & theta & EW & _). exists w, tau, theta. split; [exact EW|].
    destruct (c84_axes y fmin fmax N w tau theta ltac:(lia) H4 H5 H6 EW) as (W1 & W2 & TT & _ & _ & T0 & T1). rewrite LY in *. repeat split; auto. rewrite TT, zlen_map, arange_zlen. lia.
  - exfalso. unfold hilbert in EH. rewrite zlen_map, LY in EH. destruct (Z.eqb_spec n 0); [lia|]. discriminate.
Qed.
