(** Property theorems, restated from T_mplt.v (generated by tools/genprops.py).
    C142: the programs of doc/misc_plots. *)

From Coq Require Import Reals ZArith List Lia Lra Psatz Bool.
From Coquelicot Require Import Coquelicot.
From Flocq Require Import Core.
From Verif Require Import Py Scalars CSum DFT Spec M_base M_stft M_cohen M_utils M_dom M_gen1 M_gen2 M_mplt P_base P_stft T_stft T_utils T_dom T_gen1 T_fp T_fp2 T_mplt.
Import ListNotations.
Local Open Scope Z_scope.

(** The last sample repeats the first, one period being fs - 1 samples; the samples are odd about the middle,
    so their mean is zero. *)
Theorem C142_touch : forall fs f g, 2 <= fs -> let y := touch fs (IZR f) (IZR g) in
  zlen y = fs /\ rnth y 0 = 0%R /\ rnth y (fs - 1) = 0%R /\ (forall k, 0 <= k < fs -> rnth y (fs - 1 - k) = (- rnth y k)%R) /\ rsum (arange 0 fs) (rnth y) = 0%R.
Proof. exact c142_touch. Qed.
Print Assumptions C142_touch.

Theorem C142_sine : forall fs f k, 2 <= fs -> let a := (2 * PI * IZR f / IZR (fs - 1))%R in let b := (2 * PI * IZR k / IZR fs)%R in
  (sine_bin fs f k * RtoC (2 * (cos b - cos a)) = RtoC (sin a) * (RtoC 1 - cis b))%C.
Proof. exact c142_sine. Qed.
Print Assumptions C142_sine.

(** The two frequencies never coincide: f cycles of fs - 1 samples is no multiple of 1/fs. *)
Theorem C142_apart : forall fs f k, 0 < f < fs - 1 -> 0 <= k < fs -> cos (2 * PI * IZR k / IZR fs) <> cos (2 * PI * IZR f / IZR (fs - 1)).
Proof. exact c142_apart. Qed.
Print Assumptions C142_apart.

(** So bin 0 is zero and, unless 2 f = fs - 1, every other bin is not: a sine of 697 cycles does not fill two bins only. *)
Theorem C142_leak : forall fs f, 2 <= fs -> 0 < f < fs - 1 -> 2 * f <> fs - 1 -> sine_bin fs f 0 = RtoC 0 /\
  forall k, 0 < k < fs -> sine_bin fs f k <> RtoC 0 /\
    (Cmod (sine_bin fs f k) * Rabs (cos (2 * PI * IZR k / IZR fs) - cos (2 * PI * IZR f / IZR (fs - 1))) = Rabs (sin (2 * PI * IZR f / IZR (fs - 1))) * sin (PI * IZR k / IZR fs))%R.
Proof. exact c142_leak. Qed.
Print Assumptions C142_leak.

(** The spectrum that is drawn is half the sum of the two. *)
Theorem C142_spectrum : forall fs f g k, 2 <= fs -> 0 <= k < fs -> (cnth (touch_fft fs (IZR f) (IZR g)) k * RtoC 2 = sine_bin fs f k + sine_bin fs g k)%C.
Proof. exact c142_spectrum. Qed.
Print Assumptions C142_spectrum.

(** The four windows of the program: powers of two. *)
Theorem C142_window : forall k, 0 <= k <= 48 -> win64 (2 ^ k) 8000 = 8 * 2 ^ k + 1.
Proof. exact c142_window. Qed.
Print Assumptions C142_window.

(** Not for every number of milliseconds: 4007 ms gives 32056 samples, an even number. *)
Theorem C142_window_refuted : exists w, 1 <= w /\ win64 w 8000 = 8 * w.
Proof. exact c142_window_refuted. Qed.
Print Assumptions C142_window_refuted.

(** The product w * 0.001 is not w / 1000: 1001 ms gives 8009 samples, int(1001 / 1000 * 8000 + 1) would give 8008. *)
Theorem C142_window_1001 : win64 1001 8000 = 8009 /\ Ztrunc (b64 (b64 (b64 (1001 / 1000) * 8000) + 1)) = 8008.
Proof. exact c142_window_1001. Qed.
Print Assumptions C142_window_1001.

Theorem C142_pulses : pulse64 (192 / 1000) 8000 = 1535 /\ pulse64 (196 / 1000) 8000 = 1567.
Proof. exact c142_pulses. Qed.
Print Assumptions C142_pulses.

Theorem C142_seen : forall x ts n h p v, 0 <= h -> 2 * h < n -> 0 <= p < zlen x -> let w := repeat (RtoC 1) (Z.to_nat (2 * h + 1)) in
  exists o o', stft x (Some ts) (Some n) (Some w) = Ok o /\ stft (bump x p v) (Some ts) (Some n) (Some w) = Ok o' /\
  forall f c, 0 <= f < n -> 0 <= c < ts_len ts ->
    (p - h <= c - 1 <= p + h -> Cmod (at2 (r_tfr o') f c - at2 (r_tfr o) f c)%C = Cmod v) /\
    (c - 1 < p - h \/ p + h < c - 1 -> at2 (r_tfr o') f c = at2 (r_tfr o) f c).
Proof. exact c142_seen. Qed.
Print Assumptions C142_seen.

(** The signal of the two programs, and signal[p] += v for every integer p. *)
Theorem C142_signal : forall n fs f g, 0 <= n -> fs <> 0 -> let x := two_sines n fs f g in zlen x = n /\
  (forall k, 0 <= k < n -> cnth x k = RtoC (sin (2 * PI * f * IZR k / IZR fs) + sin (2 * PI * g * IZR k / IZR fs))) /\
  forall a b T k, f = IZR a -> g = IZR b -> (fs | a * T) -> (fs | b * T) -> 0 <= k < n -> 0 <= k + T < n -> cnth x (k + T) = cnth x k.
Proof. exact c142_signal. Qed.
Print Assumptions C142_signal.

Theorem C142_index : forall x p v, (0 <= p < zlen x -> add_at x p v = Ok (bump x p v)) /\ (- zlen x <= p < 0 -> add_at x p v = Ok (bump x (zlen x + p) v)) /\ (p < - zlen x \/ zlen x <= p -> add_at x p v = Raise IndexError) /\
  forall q, zlen (bump x q v) = zlen x /\ forall k, 0 <= k < zlen x -> cnth (bump x q v) k = (cnth x k + if k =? q then v else RtoC 0)%C.
Proof. exact c142_index. Qed.
Print Assumptions C142_index.

Theorem C142_both : forall h p q cols, 0 <= h -> h <= p <= q -> q + h + 2 <= cols -> zlen (both h p q cols) = Z.max 0 (2 * h + 1 - (q - p)).
Proof. exact c142_both. Qed.
Print Assumptions C142_both.

(** The transform that is drawn, for any parameters that put the pulses inside the signal. *)
Theorem C142_drawn : forall n fs f1 f2 t1 t2 w p q h, pulse64 t1 fs = p -> pulse64 t2 fs = q -> win64 w fs = 2 * h + 1 -> 0 <= p < n -> 0 <= q < n -> 0 <= h -> 2 * h < n ->
  exists o, doc_uncertainty n fs f1 f2 t1 t2 w = Ok o /\ zlen (r_win o) = 2 * h + 1 /\ zlen (r_tfr o) = n /\
    forall f c, 0 <= f < n -> 0 <= c < n -> at2 (r_tfr o) f c = (STFT (two_sines n fs f1 f2) (r_win o) n f (c - 1) +
      (if Z.abs (p - (c - 1)) <=? h then RtoC 3 * root n (- (f * (p - (c - 1)))) else RtoC 0) + if Z.abs (q - (c - 1)) <=? h then RtoC 3 * root n (- (f * (q - (c - 1)))) else RtoC 0)%C.
Proof. exact c142_drawn. Qed.
Print Assumptions C142_drawn.

(** The program: only the shortest of its windows keeps the two pulses apart. *)
Theorem C142_program : forall k, 1 <= k <= 4 -> let h := 4 * 2 ^ k in
  pulse64 (192 / 1000) 8000 = 1535 /\ pulse64 (196 / 1000) 8000 = 1567 /\ win64 (2 ^ k) 8000 = 2 * h + 1 /\ 2 * h < 2048 /\
  zlen (both h 1535 1567 2048) = match k with 1 => 0 | 2 => 1 | 3 => 33 | _ => 97 end.
Proof. exact c142_program. Qed.
Print Assumptions C142_program.

(** Five samples of one cycle: 0, 1, 0, -1, 0; bin 1 of 5 holds sin(pi/5) / cos(2 pi/5) in modulus. *)
Example C142_example : map (rnth (touch 5 1 1)) [0; 1; 2; 3; 4] = [0; 1; 0; -1; 0]%R /\ (Cmod (sine_bin 5 1 1) * Rabs (cos (2 * PI * 1 / 5)) = sin (PI * 1 / 5))%R.
Proof. exact c142_example. Qed.
