(** Property theorems, restated from T_gallery4.v (generated by tools/genprops.py).
    C131: the programs of the gallery with atoms, impulses and scalograms, and those
    that raise. *)

From Coq Require Import Reals ZArith List Lia Lra Bool.
From Coquelicot Require Import Coquelicot.
From Flocq Require Import Core.
From Verif Require Import Py Scalars CSum DFT Spec M_base M_putils M_stft M_cohen M_amb M_reas M_post M_dom M_gen1 M_gen2 M_gen3 M_aff M_mor M_gallery M_gallery2 M_plot
  P_base P_wvd T_wvd T_gen1 T_gen2 T_misc T_key T_hil T_putils T_aff T_aff2 T_mh T_stft T_spec T_pwvd T_reas T_reas2 T_more T_post T_plot T_plot4 T_mor T_gallery T_gallery3 T_gallery4.
Import ListNotations.
Local Open Scope Z_scope.

(** Two atoms of the same amplitude at different instants (plot_4_1_1_wv_analytic_signal.py,
    plot_4_1_4_margenau_hill.py, plot_3_1_4_atoms_*.py). *)
Theorem C131_two_atoms : forall n c d f g s, 8 <= n -> n mod 4 <> 1 -> 1 <= c < n -> 1 <= d < n -> c <> d -> s <> 0%R ->
  exists x, atoms n [atom1 (IZR c) f s; atom1 (IZR d) g s] = Ok (map Some x) /\ zlen x = n /\ cnth x (c - 1) <> RtoC 0 /\ shown_log x /\
  (exists o, mh x None None = Ok o) /\ (forall l, exists o b, pwvd x (Some (TsF l)) None None = Ok (o, b)) /\
  forall k w, 1 <= k -> exists o, stft x None (Some k) (Some w) = Ok o.
Proof. exact c131_two_atoms. Qed.
Print Assumptions C131_two_atoms.

Theorem C131_four_atoms : exists x, atoms 128 corners = Ok (map Some x) /\ zlen x = 128 /\ shown_log x /\ forall l, exists o b, pwvd x (Some (TsF l)) None None = Ok (o, b).
Proof. exact c131_four_atoms. Qed.
Print Assumptions C131_four_atoms.

(** plot_4_2_3_impulse_wv.py *)
Theorem C131_impulse : forall n, 3 <= n -> n mod 4 <> 1 -> exists x, anapulse n None = Ok x /\ zlen x = n /\ shown_log x.
Proof. exact c131_impulse. Qed.
Print Assumptions C131_impulse.

(** plot_3_4_2_morlet_scalogram_*.py, plot_4_2_2_morlet_scalogram_atoms.py: Morlet wavelets of
    half-length 6 and as many voices as samples. *)
Theorem C131_scalogram : forall (x : list C) ts fmin fmax wp, 2 <= zlen x -> (0 < fmin < fmax)%R -> (1 / 2 < wp)%R ->
  exists tfr wt, scalogram x ts (Some fmin) (Some fmax) (Some (zlen x)) (Some (Wnum wp)) = Ok (tfr, arange 0 (zlen x), geo_grid fmin fmax (zlen x), wt).
Proof. exact c131_scalogram. Qed.
Print Assumptions C131_scalogram.

(** ** The programs of doc/_gallery/noplot *)
(** noplot_4_3_5_page_margenau_hill.py: line by line, the first call already raises. *)
Theorem C131_page_raises : forall m g, 2 <= m -> 0 <= g -> 8 <= 2 * m + g -> exists x, three_parts m g = Ok (Some x) /\ ppage x None None None = Raise IndexError /\
  (forall B (rest : list C -> res B), rppage rest x None None = Raise TypeError /\ rpmh rest x None None = Raise TypeError /\ rspwv rest x None None None None = Raise TypeError).
Proof. exact c131_page_raises. Qed.
Print Assumptions C131_page_raises.

(** noplot_5_5_scalogram_singularity*.py: 256 voices of 64 samples. *)
Theorem C131_singularity_raises : forall (x : list C) ts, zlen x = 64 -> scalogram x ts (Some (1 / 100)%R) (Some (1 / 2)%R) (Some 256) (Some (Wnum 4)) = Raise IndexError.
Proof. exact c131_singularity_raises. Qed.
Print Assumptions C131_singularity_raises.

(** The signals of plot_3_1_4_atoms_hamming_stft.py and of the 64-point impulse. *)
Example C131_atoms_example : exists x, atoms 128 [atom1 45 (25 / 100) 32; atom1 85 (25 / 100) 32] = Ok (map Some x) /\ zlen x = 128 /\ cnth x 44 <> RtoC 0.
Proof. exact c131_atoms_example. Qed.

Example C131_impulse_example : exists x, anapulse 128 None = Ok x /\ zlen x = 128 /\ shown_log x.
Proof. exact c131_impulse_example. Qed.
