(** Property theorems, restated from T_bins.v (generated by tools/genprops.py).
    Properties of the number of bins (C129). *)

From Coq Require Import Reals ZArith List Lia Lra Bool.
From Coquelicot Require Import Coquelicot.
From Flocq Require Import Core.
From Verif Require Import Py Scalars CSum DFT M_base M_stft M_cohen M_bins T_bins.
Import ListNotations.
Local Open Scope Z_scope.

Theorem C129_positive : forall x ts l n w tw fw, 1 <= bins_of x n ->
  stft_b x ts n w = stft x ts n w /\ spectrogram_b x ts n w = spectrogram x ts n w /\
  wvd_b x ts n = wvd x ts n /\ pwvd_b x ts n w = pwvd x ts n w /\ mh_b x ts n = mh x ts n /\
  page_b x ts n = page x ts n /\ pmh_b x ts n w = pmh x ts n w /\ ppage_b x ts n w = ppage x ts n w /\
  spwv_b x l n tw fw = spwv x l n tw fw.
Proof. exact c129_positive. Qed.
Print Assumptions C129_positive.

Theorem C129_negative : forall x ts l n w tw fw, bins_of x n < 0 ->
  stft_b x ts n w = Raise ValueError /\ spectrogram_b x ts n w = Raise ValueError /\
  wvd_b x ts n = Raise ValueError /\ pwvd_b x ts n w = Raise ValueError /\ mh_b x ts n = Raise ValueError /\
  page_b x ts n = Raise ValueError /\ pmh_b x ts n w = Raise ValueError /\ ppage_b x ts n w = Raise ValueError /\
  spwv_b x l n tw fw = Raise ValueError.
Proof. exact c129_negative. Qed.
Print Assumptions C129_negative.

Theorem C129_zero_stft : forall x ts w, stft_b x (Some ts) (Some 0) (Some w) = Raise (stft0 x w (ts_len ts)).
Proof. exact c129_zero_stft. Qed.
Print Assumptions C129_zero_stft.

Theorem C129_zero_spectrogram : forall x l w,
  spectrogram_b x (Some (TsI l)) (Some 0) (Some w) = Raise ValueError.
Proof. exact c129_zero_spectrogram. Qed.
Print Assumptions C129_zero_spectrogram.

Theorem C129_zero_wvd : forall x ts,
  wvd_b x (Some ts) (Some 0) = Raise (if (ts_len ts =? zlen x) && (2 <=? zlen x) then IndexError else ValueError).
Proof. exact c129_zero_wvd. Qed.
Print Assumptions C129_zero_wvd.

Theorem C129_zero_pwvd : forall x ts w,
  pwvd_b x (Some ts) (Some 0) (Some w)
  = Raise (if (1 <=? ts_len ts) && (1 <=? zlen x) && (1 <=? zlen w) then IndexError else ValueError).
Proof. exact c129_zero_pwvd. Qed.
Print Assumptions C129_zero_pwvd.

Theorem C129_zero_mh_page : forall x l,
  ((forall ti, In ti l -> - zlen x <= ti < zlen x) ->
     mh_b x (Some (TsI l)) (Some 0) = Raise ValueError /\ page_b x (Some (TsI l)) (Some 0) = Raise ValueError) /\
  ((exists ti, In ti l /\ ~ (- zlen x <= ti < zlen x)) ->
     mh_b x (Some (TsI l)) (Some 0) = Raise IndexError /\ page_b x (Some (TsI l)) (Some 0) = Raise IndexError).
Proof. exact c129_zero_mh_page. Qed.
Print Assumptions C129_zero_mh_page.

Theorem C129_zero_pmh : forall x ts w, pmh_b x (Some ts) (Some 0) w = Raise (if 1 <=? ts_len ts then IndexError else ValueError).
Proof. exact c129_zero_pmh. Qed.
Print Assumptions C129_zero_pmh.

Theorem C129_zero_ppage : forall x ts w,
  ppage_b x (Some ts) (Some 0) w
  = Raise (match w with None => IndexError | Some _ => if 1 <=? ts_len ts then IndexError else ValueError end).
Proof. exact c129_zero_ppage. Qed.
Print Assumptions C129_zero_ppage.

Theorem C129_zero_spwv : forall x l tw fw, zlen tw mod 2 = 1 -> zlen fw mod 2 = 1 ->
  spwv_b x (Some l) (Some 0) (Some tw) (Some fw) = Raise (if 1 <=? zlen l then IndexError else ValueError).
Proof. exact c129_zero_spwv. Qed.
Print Assumptions C129_zero_spwv.

Theorem C129_zero_spwv_default : forall x tw fw, zlen tw mod 2 = 1 -> zlen fw mod 2 = 1 ->
  spwv_b x None (Some 0) (Some tw) (Some fw) = Raise (if 1 <=? zlen x then IndexError else ValueError).
Proof. exact c129_zero_spwv_default. Qed.
Print Assumptions C129_zero_spwv_default.

Theorem C129_float : forall n, float_bins n true = TypeError /\
  ((n < 0)%R -> float_bins n false = ValueError) /\ ((0 <= n)%R -> float_bins n false = TypeError).
Proof. exact c129_float. Qed.
Print Assumptions C129_float.

(** An empty signal has no bins by default: every representation raises. *)
Theorem C129_empty_signal :
  stft_b [] None None None = Raise ValueError /\ spectrogram_b [] None None None = Raise ValueError /\
  wvd_b [] None None = Raise ValueError /\ pwvd_b [] None None None = Raise ValueError /\
  mh_b [] None None = Raise ValueError /\ page_b [] None None = Raise ValueError /\
  pmh_b [] None None None = Raise ValueError /\ ppage_b [] None None None = Raise IndexError /\
  spwv_b [] None None None None = Raise ValueError.
Proof. exact c129_empty_signal. Qed.
Print Assumptions C129_empty_signal.

(** One column of the STFT with no bins is not indexed, two are. *)
Example C129_example : let x := [RtoC 1; RtoC 2] in
  stft_b x (Some (TsI [0])) (Some 0) (Some [RtoC 1]) = Raise ValueError /\
  stft_b x (Some (TsI [0; 1])) (Some 0) (Some [RtoC 1]) = Raise IndexError /\
  wvd_b x (Some (TsI [0; 1])) (Some 0) = Raise IndexError /\
  wvd_b x (Some (TsI [0; 1])) (Some (-2)) = Raise ValueError.
Proof. exact c129_example. Qed.
