(** Property theorems, restated from T_docs2.v (generated by tools/genprops.py).
    C133: what the programs of the docstrings show, for all sizes and parameters. *)

From Coq Require Import Reals ZArith List Lia Lra Bool.
From Coquelicot Require Import Coquelicot.
From Flocq Require Import Core.
From Verif Require Import Py Scalars CSum DFT Spec M_base M_stft M_reas M_post M_dom M_gen1 M_gen2 M_gen3 M_gallery M_docs P_base P_stft P_wvd T_putils T_stft T_post2 T_dom T_gen1 T_gen2 T_noise T_tone T_gallery T_gallery3 T_nd T_docs2.
Import ListNotations.
Local Open Scope Z_scope.

(** inst_freq of a sinusoidal modulation: the law one sample earlier, its deviation
    from the mid frequency shrunk by sin(a) / a with a = 2 pi / period. *)
Theorem C133_inst_freq : forall ang n fmin fmax per, (forall k z, is_angle z (ang k z)) -> 2 <= n -> (0 <= fmin < fmax)%R -> (fmax <= 1 / 2)%R -> per <> 0%R ->
  let a := (2 * PI / per)%R in let mid := ((fmin + fmax) / 2)%R in
  exists law fs, doc_inst_freq ang n fmin fmax per = Ok (Some (law, fs, arange 2 n)) /\ zlen law = n /\ zlen fs = n - 2 /\
  forall k, 0 <= k < n - 2 -> rnth fs k = (mid + (rnth law (k + 1) - mid) * (sin a / a))%R /\ (fmin < rnth fs k < fmax)%R.
Proof. exact c133_inst_freq. Qed.
Print Assumptions C133_inst_freq.

(** With period 2 the modulation is invisible. *)
Theorem C133_blind : forall ang n fmin fmax, (forall k z, is_angle z (ang k z)) -> 2 <= n -> (0 <= fmin < fmax)%R -> (fmax <= 1 / 2)%R ->
  exists law fs, doc_inst_freq ang n fmin fmax 2 = Ok (Some (law, fs, arange 2 n)) /\ forall k, 0 <= k < n - 2 -> rnth fs k = ((fmin + fmax) / 2)%R.
Proof. exact c133_blind. Qed.
Print Assumptions C133_blind.

(** The two laws one after the other. *)
Theorem C133_fmodany : forall n m, 2 <= n -> 1 <= m ->
  exists law s, doc_fmodany n m = Ok (Some (law, s)) /\ zlen law = n + m /\ zlen s = n + m /\
  (forall k, 0 <= k < n -> rnth law k = (1 / 2 * IZR k / IZR (n - 1))%R) /\
  (forall k, 0 <= k < m -> rnth law (n + k) = (1 / 4 + 1 / 5 * sin (2 * PI * (IZR k / IZR m - 1 / 2)))%R) /\
  (forall k, 0 <= k < n + m -> Cmod (cnth s k) = 1%R) /\ cnth s 1 = RtoC 1 /\
  (forall k, 0 < k < n + m -> cnth s k = (cnth s (k - 1) * cis (2 * PI * rnth law k))%C).
Proof. exact c133_fmodany. Qed.
Print Assumptions C133_fmodany.

(** Gaussian envelope times a tone or a chirp: the phase reference of the tone is
    sample c, one after the maximum of the envelope; that of the chirp is c - 1. *)
Theorem C133_fmconst : forall n c s f, 0 <= c < n -> (0 < s)%R -> (Rabs f <= 1 / 2)%R ->
  exists z, doc_fmconst n c s f = Ok (Some z) /\ zlen z = n /\
  (forall k, 0 <= k < n -> let g := exp (- PI * ((IZR k - (IZR c - 1)) / s) ^ 2) in Cmod (cnth z k) = g /\ cnth z k = (cis (2 * PI * f * IZR (k - c)) * RtoC g)%C) /\
  (1 <= c -> cnth z (c - 1) = Cconj (cis (2 * PI * f))) /\ cnth z c = RtoC (exp (- PI / s ^ 2)).
Proof. exact c133_fmconst. Qed.
Print Assumptions C133_fmconst.

Theorem C133_fmlin : forall n c s f1 f2, 2 <= n -> 1 <= c <= n -> (0 < s)%R -> (Rabs f1 <= 1 / 2)%R -> (Rabs f2 <= 1 / 2)%R ->
  exists z, doc_fmlin n c s f1 f2 = Ok (Some z) /\ zlen z = n /\
  (forall k, 0 <= k < n -> Cmod (cnth z k) = exp (- PI * ((IZR k - (IZR c - 1)) / s) ^ 2)) /\ cnth z (c - 1) = RtoC 1.
Proof. exact c133_fmlin. Qed.
Print Assumptions C133_fmlin.

(** inst_freq of Doppler noise of n - 1 samples at the instants a .. b - 1. *)
Theorem C133_dopnoise : forall ang rand n sf ft dist v tc c a b L, (forall k z, is_angle z (ang k z)) -> sampler rand -> 2 <= n -> sf <> 0%R -> dist <> 0%R -> c <> 0%R ->
  (2 <= a -> b <= n - 1 -> doc_dopnoise ang rand n sf ft dist v tc c a b L = Ok None \/
   exists fs, doc_dopnoise ang rand n sf ft dist v tc c a b L = Ok (Some (fs, arange a b)) /\ zlen fs = Z.max 0 (b - a) /\ forall f, In f fs -> (0 <= f <= 1 / 2)%R) /\
  (a < b -> n - 1 < b -> doc_dopnoise ang rand n sf ft dist v tc c a b L = Ok None \/ doc_dopnoise ang rand n sf ft dist v tc c a b L = Raise IndexError).
Proof. exact c133_dopnoise. Qed.
Print Assumptions C133_dopnoise.

(** Two tones of n samples one after the other: each column whose window lies in one
    half shows the transform of the Hamming window about the frequency of that half;
    no entry of such a column exceeds the sum of the window, reached on the bin. *)
Theorem C133_stft : forall n f1 f2, 1 <= n -> (Rabs f1 <= 1 / 2)%R -> (Rabs f2 <= 1 / 2)%R ->
  let w := make_window (2 * n) in let h := (zlen w - 1) / 2 in
  exists o, doc_stft n f1 f2 = Ok (Some o) /\ zlen (r_tfr o) = 2 * n /\ (forall c, In c (r_tfr o) -> zlen c = 2 * n) /\
  forall f c, 0 <= f < 2 * n -> 0 <= c < 2 * n ->
    (h <= c - 1 < n - h -> Cmod (at2 (r_tfr o) f c) = Cmod (window_dft w (f1 - IZR f / (2 * IZR n)))) /\
    (n + h <= c - 1 < 2 * n - h -> Cmod (at2 (r_tfr o) f c) = Cmod (window_dft w (f2 - IZR f / (2 * IZR n)))).
Proof. exact c133_stft. Qed.
Print Assumptions C133_stft.

(** The window's transform is largest at offset 0, where it is the sum of the window. *)
Theorem C133_window : forall n d q, 1 <= n -> let w := make_window n in
  (Cmod (window_dft w d) <= rsum w (fun v => v))%R /\ Cmod (window_dft w (IZR q)) = rsum w (fun v => v).
Proof. exact c133_window. Qed.
Print Assumptions C133_window.

Example C133_fmodany_example : exists law s, doc_fmodany 2 2 = Ok (Some (law, s)) /\ law = [0; 1 / 2; 1 / 4; 1 / 4]%R /\ cnth s 2 = Ci /\ cnth s 3 = RtoC (-1).
Proof. exact c133_fmodany_example. Qed.

Example C133_inst_freq_example : forall ang, (forall k z, is_angle z (ang k z)) ->
  exists law f, doc_inst_freq ang 3 0 (1 / 2) 4 = Ok (Some (law, [f], [2])) /\ rnth law 1 = (1 / 4 - sqrt 2 / 8)%R /\ f = (1 / 4 - sqrt 2 / (4 * PI))%R.
Proof. exact c133_inst_freq_example. Qed.

Example C133_stft_example : exists o, doc_stft 128 (1 / 4) (2 / 5) = Ok (Some o) /\ zlen (r_tfr o) = 256 /\ Cmod (at2 (r_tfr o) 64 40) = rsum (make_window 256) (fun v => v).
Proof. exact c133_stft_example. Qed.
