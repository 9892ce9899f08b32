(** Property theorems, restated from T_gallery2.v (generated by tools/genprops.py).
    C131: more programs of the gallery. *)

From Coq Require Import Reals ZArith List Lia Lra Bool.
From Coquelicot Require Import Coquelicot.
From Flocq Require Import Core.
From Verif Require Import Py Scalars CSum DFT Spec M_base M_stft M_cohen M_amb M_reas M_post M_dom M_gen1 M_gen2 M_gen3 M_gabor M_aff M_wb M_gallery M_gallery2 M_plot
  P_base P_wvd T_wvd T_gen1 T_gen2 T_misc T_misc2 T_gabor T_hil T_aff T_aff3 T_noise T_amb T_stft T_spec T_pwvd T_reas T_reas2 T_post T_post3 T_plot T_plot4 T_dom T_wb T_gallery T_gallery2.
Import ListNotations.
Local Open Scope Z_scope.

Theorem C131_gabor : forall w, zlen w = 33 ->
  (exists tfr dgr gam, gabor_chirp 256 16 1 w = Ok (tfr, dgr, gam) /\ zlen dgr = 16 /\ (forall c, In c dgr -> zlen c = 16) /\ zlen gam = 256) /\
  (exists tfr dgr gam, gabor_chirp 256 32 4 w = Ok (tfr, dgr, gam) /\ zlen dgr = 32 /\ (forall c, In c dgr -> zlen c = 32) /\ zlen gam = 256).
Proof. exact c131_gabor. Qed.
Print Assumptions C131_gabor.

(** The default number of voices of Bertrand and any number of voices of all three:
    the run returns, with the frequencies between 0.01 and 0.22. *)
Theorem C131_affine : forall spl k n degree, (forall u v w, zlen (spl u v w) = zlen w) -> 68 <= n -> degree <> 1%R ->
  (forall nv, 2 <= nv -> exists tfr, affine_gd spl true k n degree (1 / 100) (22 / 100) (Some nv) = Ok (Some (tfr, arange 0 n, geo_grid (1 / 100) (22 / 100) nv))) /\
  (k = Bert -> exists nv tfr, 2 <= nv /\ affine_gd spl true k n degree (1 / 100) (22 / 100) None = Ok (Some (tfr, arange 0 n, geo_grid (1 / 100) (22 / 100) nv))).
Proof. exact c131_affine. Qed.
Print Assumptions C131_affine.

Theorem C131_wideband : forall n f1 f2 alpha fmin fmax N, 2 <= n -> (0 < f1 < f2)%R -> (0 < alpha)%R -> alpha <> 1%R -> (0 < fmin < fmax)%R -> (fmax <= 1 / 2)%R -> 2 <= N ->
  wide_altes n f1 f2 alpha fmin fmax N = Ok None \/
  exists w tau theta, wide_altes n f1 f2 alpha fmin fmax N = Ok (Some (w, tau, theta)) /\ zlen w = n /\ (forall col, In col w -> zlen col = N) /\
    zlen tau = n /\ rnth theta 0 = (- ln (fmax / fmin))%R /\ rnth theta (N - 1) = ln (fmax / fmin).
Proof. exact c131_wideband. Qed.
Print Assumptions C131_wideband.
