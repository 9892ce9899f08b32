(** Property theorems, restated from T_gallery3.v (generated by tools/genprops.py).
    C131: the programs of the gallery with reassigned representations and with sums of
    signals. *)

From Coq Require Import Reals ZArith List Lia Lra Bool.
From Coquelicot Require Import Coquelicot.
From Flocq Require Import Core.
From Verif Require Import Py Scalars CSum DFT Spec M_base M_stft M_cohen M_amb M_reas M_post M_dom M_gen1 M_gen2 M_gen3 M_gallery M_gallery2 M_plot
  P_base P_wvd T_wvd T_gen1 T_gen2 T_misc T_putils T_noise T_amb T_stft T_spec T_pwvd T_reas T_reas2 T_post T_post3 T_plot T_plot4 T_dom T_nd T_gallery T_gallery3.
Import ListNotations.
Local Open Scope Z_scope.

Theorem C131_density : forall x l, 8 <= zlen x -> l <> [] -> (forall t, In t l -> 1 <= t <= zlen x) -> (exists t, In t l /\ cnth x (t - 1) <> RtoC 0) ->
  exists m, density_of x l = Ok (Some m) /\ zlen m = zlen l /\ (forall c, In c m -> zlen c = zlen x) /\
  (forall v, In v (concat m) -> (0 <= v)%R) /\ rsum (concat m) (fun v => v) = 1%R.
Proof. exact c131_density. Qed.
Print Assumptions C131_density.

Theorem C131_friedman : forall m g, 2 <= m -> 0 <= g -> 8 <= 2 * m + g ->
  exists x d, three_parts m g = Ok (Some x) /\ zlen x = 2 * m + g /\ density_of x (odd_stamps (2 * m + g)) = Ok (Some d) /\
  zlen d = (2 * m + g) / 2 /\ (forall c, In c d -> zlen c = 2 * m + g) /\ (forall v, In v (concat d) -> (0 <= v)%R) /\ rsum (concat d) (fun v => v) = 1%R.
Proof. exact c131_friedman. Qed.
Print Assumptions C131_friedman.

(** reassigned_spectrogram(x) returns for every signal of at least 8 samples, and so does
    Spectrogram(x).run(). *)
Theorem C131_reassigned : forall x, 8 <= zlen x ->
  (exists tfr rtfr vec, rspec x None None None = Ok (Some (tfr, rtfr, vec)) /\ shape tfr (zlen x) (zlen x) /\ shape rtfr (zlen x) (zlen x)) /\
  (exists m, spectrogram x None None None = Ok m /\ zlen m = zlen x /\ forall c, In c m -> exists col, c = Some col /\ zlen col = zlen x /\ forall v, In v col -> (0 <= v)%R).
Proof. exact c131_reassigned. Qed.
Print Assumptions C131_reassigned.

(** plot_4_3_2: the ideal representation marks both laws in every column. *)
Theorem C131_hybrid : forall n, 8 <= n ->
  exists x l1 l2, hybrid n = Ok (Some (x, [map Some l1; map Some l2])) /\ zlen x = n /\ zlen l1 = n /\ zlen l2 = n /\
  (exists tfr rtfr vec, rspec x None None None = Ok (Some (tfr, rtfr, vec)) /\ shape rtfr n n) /\
  (exists m, spectrogram x None None None = Ok m /\ zlen m = n) /\
  exists m freqs, ideal_tfr [map Some l1; map Some l2] None None = Ok (m, arange 0 n, freqs) /\ grid m n n /\
  forall c, 0 <= c < n -> (forall f, f = rnth l1 c \/ f = rnth l2 c -> let r := ZnearestE (2 * f * IZR (n - 1)) in 0 <= r < n /\ cell None m r c = Some 1%R).
Proof. exact c131_hybrid. Qed.
Print Assumptions C131_hybrid.

(** plot_1_3_3_transient*.py *)
Theorem C131_transient : forall rand m a b p r, sampler rand -> 1 <= m -> 0 <= a -> 0 <= b -> a + m + b = 2 ^ p -> 2 <= p -> rstd (rand (2 ^ p)) <> 0%R ->
  exists x, transient rand m a b r = Ok (Some x) /\ zlen x = 2 ^ p /\ shown x /\
  forall n w, 1 <= n -> exists t, spectrogram x None (Some n) (Some w) = Ok t /\ zlen t = 2 ^ p.
Proof. exact c131_transient. Qed.
Print Assumptions C131_transient.

Theorem C131_tone_and_packet : forall n f g, 8 <= n -> (Rabs f <= 1 / 2)%R -> (Rabs g <= 1 / 2)%R ->
  exists x, tone_and_packet n f g = Ok (Some x) /\ zlen x = n /\ (n mod 4 <> 1 -> shown x) /\
  forall l, exists o b, pwvd x (Some (TsF l)) None None = Ok (o, b).
Proof. exact c131_tone_and_packet. Qed.
Print Assumptions C131_tone_and_packet.

(** plot_3_4_1_*.py, plot_2_7_*.py *)
Theorem C131_chirp_sum : forall n a b c d, 2 <= n -> (Rabs a <= 1 / 2)%R -> (Rabs b <= 1 / 2)%R -> (Rabs c <= 1 / 2)%R -> (Rabs d <= 1 / 2)%R ->
  exists x, chirp_sum n a b c d = Ok x /\ zlen x = n /\
  (forall k w, 1 <= k -> exists t, spectrogram x None (Some k) (Some w) = Ok t /\ zlen t = n) /\
  (forall k w, 1 <= k -> exists o, stft x None (Some k) (Some w) = Ok o /\ zlen (r_tfr o) = n /\ forall col, In col (r_tfr o) -> zlen col = k) /\
  (forall ang, exists fs, inst_freq ang x None = Ok (fs, arange 2 n) /\ zlen fs = n - 2) /\
  (forall fs, exists v, group_delay x (Some fs) = Ok v /\ zlen v = zlen fs).
Proof. exact c131_chirp_sum. Qed.
Print Assumptions C131_chirp_sum.

(** plot_4_1_3_*.py *)
Theorem C131_packets : forall n a b c d, 2 <= n -> (Rabs a <= 1 / 2)%R -> (Rabs b <= 1 / 2)%R -> (Rabs c <= 1 / 2)%R -> (Rabs d <= 1 / 2)%R ->
  exists x, packets n a b c d = Ok (Some x) /\ zlen x = 2 * n /\ shown x /\ exists r, narrow_band x None None = Ok r.
Proof. exact c131_packets. Qed.
Print Assumptions C131_packets.

(** plot_4_1_1_doppler_wigner_ville.py, with the contour in logarithmic scale. *)
Theorem C131_doppler : forall n sf f0 dist v c, 3 <= n -> (0 < dist)%R -> (0 < sf)%R -> (bpow radix2 (-52) <= f0 <= sf / 2)%R -> (0 <= v)%R -> c <> 0%R -> n mod 4 <> 1 ->
  exists x o, doppler_sound n sf f0 dist v c = Ok x /\ zlen x = n /\ (forall k, 0 <= k < n -> cnth x k <> RtoC 0) /\ wvd x None None = Ok o /\
  forall k tf sq th, (0 < th < 1)%R -> exists p, wvd_picture_log k tf sq th o = Ok p.
Proof. exact c131_doppler. Qed.
Print Assumptions C131_doppler.
