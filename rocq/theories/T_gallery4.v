(** C131: the programs of the gallery with atoms, impulses and scalograms, and those
    that raise. *)
From Coq Require Import Reals ZArith List Lia Lra Bool.
From Coquelicot Require Import Coquelicot.
From Flocq Require Import Core.
From Verif Require Import Py Scalars CSum DFT Spec M_base M_putils M_stft M_cohen M_amb M_reas M_post M_dom M_gen1 M_gen2 M_gen3 M_aff M_mor M_gallery M_gallery2 M_plot
  P_base P_wvd T_wvd T_gen1 T_gen2 T_misc T_key T_hil T_putils T_aff T_aff2 T_mh T_stft T_spec T_pwvd T_reas T_reas2 T_more T_post T_plot T_plot4 T_mor T_gallery T_gallery3.
Import ListNotations.
Local Open Scope Z_scope.

(** Drawn by WignerVilleDistribution in linear and in logarithmic scale. *)
Definition shown_log (x : list C) : Prop :=
  exists o, wvd x None None = Ok o /\ (forall k tf sq th, exists p, wvd_picture k tf sq th o = Ok p) /\
  forall k tf sq th, (0 < th < 1)%R -> exists p, wvd_picture_log k tf sq th o = Ok p.
Lemma shown_log_ok x : 3 <= zlen x -> zlen x mod 4 <> 1 -> (exists k, 0 <= k < zlen x /\ cnth x k <> RtoC 0) -> shown_log x.
Proof.
  intros L HM NZ. destruct (shown_ok x ltac:(lia) HM) as [(o & O & P) _]. exists o. split; [exact O|]. split; [exact P|]. intros. eapply c99_wvd_default; eauto.
Qed.

Definition atom1 (t f s : R) : atom := {| a_t := t; a_f := f; a_T := s; a_A := 1 |}.
Lemma centre_int n c : 1 <= c <= n -> atom_centre n (IZR c) = c.
Proof.
  intros H. unfold atom_centre. assert (1 <= IZR c <= IZR n)%R by (split; apply IZR_le; lia). rewrite Rmin_left, Rmax_left by (try rewrite Rmin_left; lra). apply (Zrnd_IZR ZnearestE).
Qed.
Lemma atom_mod n a k : (0 <= a_A a)%R -> Cmod (atom_at n a k) = (a_A a * exp (- PI * ((IZR k + 1 - IZR (atom_centre n (a_t a))) / a_T a) ^ 2))%R.
Proof. intros H. unfold atom_at. rewrite Cmod_mult, Cmod_R, Cmod_cis, Rmult_1_r. apply Rabs_right. apply Rle_ge, Rmult_le_pos; [exact H|left; apply exp_pos]. Qed.
Lemma gauss_small d : d <> 0%R -> (exp (- PI * d ^ 2) < 1)%R.
Proof. intros H. rewrite <- exp_0. apply exp_increasing. assert (P := PI_RGT_0). assert (0 < d ^ 2)%R by (apply pow2_gt_0; exact H). nra. Qed.

(** Two atoms of the same amplitude at different instants (plot_4_1_1_wv_analytic_signal.py,
    plot_4_1_4_margenau_hill.py, plot_3_1_4_atoms_*.py). *)
Lemma c131_two_atoms : forall n c d f g s, 8 <= n -> n mod 4 <> 1 -> 1 <= c < n -> 1 <= d < n -> c <> d -> s <> 0%R ->
  exists x, atoms n [atom1 (IZR c) f s; atom1 (IZR d) g s] = Ok (map Some x) /\ zlen x = n /\ cnth x (c - 1) <> RtoC 0 /\ shown_log x /\
  (exists o, mh x None None = Ok o) /\ (forall l, exists o b, pwvd x (Some (TsF l)) None None = Ok (o, b)) /\
  forall k w, 1 <= k -> exists o, stft x None (Some k) (Some w) = Ok o.
Proof.
  intros n c d f g s Hn HM Hc Hd ND HS. destruct (c67_atoms n [atom1 (IZR c) f s; atom1 (IZR d) g s] ltac:(lia)) as (x & E & L & V).
  { intros a [<-|[<-|[]]]; cbn [atom1 a_T a_t]; rewrite centre_int by lia; split; auto; lia. }
  assert (NZ : cnth x (c - 1) <> RtoC 0).
  { rewrite V by lia. rewrite !csum_cons, csum_nil. intros Q. assert (Q' : (atom_at n (atom1 (IZR c) f s) (c - 1) = - atom_at n (atom1 (IZR d) g s) (c - 1))%C) by (transitivity (atom_at n (atom1 (IZR c) f s) (c - 1) + (atom_at n (atom1 (IZR d) g s) (c - 1) + RtoC 0) - atom_at n (atom1 (IZR d) g s) (c - 1))%C; [ring|rewrite Q; ring]).
    apply (f_equal Cmod) in Q'. rewrite Cmod_opp, !atom_mod in Q' by (cbn; lra). cbn [atom1 a_t a_T a_A] in Q'. rewrite !centre_int in Q' by lia. rewrite minus_IZR in Q'.
    replace ((IZR c - 1 + 1 - IZR c) / s)%R with 0%R in Q' by (unfold Rdiv; ring). replace (- PI * 0 ^ 2)%R with 0%R in Q' by ring. rewrite exp_0 in Q'.
    assert (S := gauss_small ((IZR c - 1 + 1 - IZR d) / s)%R). assert (DN : ((IZR c - 1 + 1 - IZR d) / s <> 0)%R).
    { intros Z. apply ND. apply eq_IZR. apply (f_equal (fun t => t * s)%R) in Z. unfold Rdiv in Z. rewrite Rmult_assoc, Rinv_l, Rmult_0_l, Rmult_1_r in Z by auto. lra. }
    specialize (S DN). lra. }
  exists x. split; [exact E|]. split; [exact L|]. split; [exact NZ|]. split; [apply shown_log_ok; rewrite L; auto; [lia|exists (c - 1); split; [lia|exact NZ]]|]. split; [|split].
  - destruct (c30_mh_outcome x (arange 0 (zlen x)) (zlen x) ltac:(lia)) as [[_ (o & EO & _)]|[(t & Ht & B) _]]; [exists o; exact EO|]. exfalso. apply B. apply in_arange in Ht. lia.
  - intros l. apply pwvd_default. lia.
  - intros k w Hk. destruct (c09_stft_total x (TsI (arange 0 (zlen x))) k w Hk) as (o & EO & _). exists o. exact EO.
Qed.

(** Four atoms at the corners of a rectangle (plot_4_1_1_wv_atoms.py, plot_4_1_1_pwv_atoms.py). *)
Definition corners : list atom := [atom1 32 (15 / 100) 20; atom1 96 (15 / 100) 20; atom1 32 (35 / 100) 20; atom1 96 (35 / 100) 20].
Lemma c131_four_atoms : exists x, atoms 128 corners = Ok (map Some x) /\ zlen x = 128 /\ shown_log x /\ forall l, exists o b, pwvd x (Some (TsF l)) None None = Ok (o, b).
Proof.
  assert (C1 : atom_centre 128 32 = 32) by (apply (centre_int 128 32); lia). assert (C2 : atom_centre 128 96 = 96) by (apply (centre_int 128 96); lia).
  destruct (c67_atoms 128 corners ltac:(lia)) as (x & E & L & V).
  { intros a [<-|[<-|[<-|[<-|[]]]]]; cbn [atom1 a_T a_t]; rewrite ?C1, ?C2; split; try lia; lra. }
  assert (NZ : cnth x 31 <> RtoC 0).
  { rewrite V by lia. unfold corners. rewrite !csum_cons, csum_nil. intros Q. apply (f_equal Im) in Q. rewrite !Im_plus in Q. change (Im (RtoC 0)) with 0%R in Q.
    assert (IM : forall t f, (0 <= f <= 1 / 2)%R -> Im (atom_at 128 (atom1 t f 20) 31) = (exp (- PI * ((32 - IZR (atom_centre 128 t)) / 20) ^ 2) * sin (2 * PI * f * (31 - IZR (atom_centre 128 t))))%R).
    { intros t f Hf. unfold atom_at. cbn [atom1 a_t a_f a_T a_A]. rewrite Rmin_left, Rmax_left by (try rewrite Rmin_left; lra). rewrite Scalars.Im_scal. replace (IZR 31 + 1)%R with 32%R by lra. unfold cis. cbn [Im snd]. ring. }
    rewrite !IM in Q by lra. rewrite C1, C2 in Q. replace (- PI * ((32 - 32) / 20) ^ 2)%R with 0%R in Q by field. rewrite exp_0 in Q.
    set (e := exp (- PI * ((32 - 96) / 20) ^ 2)) in Q. assert (PP := PI_RGT_0). assert (P2 := PI2_3_2). 
    assert (EB : (0 < e <= 1 / 2)%R).
    { split; [apply exp_pos|]. assert (e <= exp (-1))%R by (unfold e; left; apply exp_increasing; nra). assert (X : (exp (-1) * exp 1 = 1)%R) by (rewrite <- exp_plus; replace (-1 + 1)%R with 0%R by lra; apply exp_0).
      assert (1 + 1 < exp 1)%R by (apply exp_ineq1; lra). assert (P := exp_pos (-1)). nra. }
    replace (2 * PI * (15 / 100) * (31 - 32))%R with (- (PI * (3 / 10)))%R in Q by field. replace (2 * PI * (35 / 100) * (31 - 32))%R with (- (PI - PI * (3 / 10)))%R in Q by field. rewrite !sin_neg, sin_PI_x in Q.
    assert (SB : (1 / 2 < sin (PI * (3 / 10)))%R) by (rewrite <- sin_PI6; apply sin_increasing_1; lra).
    assert (B1 := SIN_bound (2 * PI * (15 / 100) * (31 - 96))). assert (B2 := SIN_bound (2 * PI * (35 / 100) * (31 - 96))). 
    set (s1 := sin (2 * PI * (15 / 100) * (31 - 96))) in *. set (s2 := sin (2 * PI * (35 / 100) * (31 - 96))) in *. set (s0 := sin (PI * (3 / 10))) in *.
    assert (e * s1 <= e)%R by nra. assert (e * s2 <= e)%R by nra. lra. }
  exists x. split; [exact E|]. split; [exact L|]. split; [apply shown_log_ok; rewrite L; [lia|discriminate|exists 31; split; [lia|exact NZ]]|]. intros l. apply pwvd_default. lia.
Qed.

(** plot_4_2_3_impulse_wv.py *)
Lemma c131_impulse : forall n, 3 <= n -> n mod 4 <> 1 -> exists x, anapulse n None = Ok x /\ zlen x = n /\ shown_log x.
Proof.
  intros n Hn HM. destruct (c59_anapulse n None ltac:(lia)) as (x & E & L & A & _). cbn beta iota in A. assert (HR := half_round_range n ltac:(lia)). exists x. split; [exact E|]. split; [exact L|].
  apply shown_log_ok; rewrite L; auto. exists (half_round n). split; [lia|]. intros Q.
  assert (X : rnth (map Re x) (half_round n) = 1%R) by (rewrite A; rewrite rnth_map_arange by lia; destruct (Req_EM_T _ _) as [|N]; [reflexivity|destruct N; f_equal; lia]).
  unfold rnth in X. rewrite (nth_indep _ 0%R (Re (RtoC 0))), map_nth in X by (rewrite map_length; unfold zlen in L; lia). unfold cnth in Q. rewrite Q in X. cbn in X. lra.
Qed.

(** plot_3_4_2_morlet_scalogram_*.py, plot_4_2_2_morlet_scalogram_atoms.py: Morlet wavelets of
    half-length 6 and as many voices as samples. *)
Lemma c131_scalogram : forall (x : list C) ts fmin fmax wp, 2 <= zlen x -> (0 < fmin < fmax)%R -> (1 / 2 < wp)%R ->
  exists tfr wt, scalogram x ts (Some fmin) (Some fmax) (Some (zlen x)) (Some (Wnum wp)) = Ok (tfr, arange 0 (zlen x), geo_grid fmin fmax (zlen x), wt).
Proof.
  intros x ts fmin fmax wp HN Hf Hw. destruct (c83_scalogram x ts fmin fmax wp HN Hf ltac:(auto)) as (z & _ & tfr & E & _).
  rewrite <- (proj2 (c82_defaults x ts (Some fmin) (Some fmax) None (Some (Wnum wp)))), E. eauto.
Qed.

(** ** The programs of doc/_gallery/noplot *)
(** noplot_4_3_5_page_margenau_hill.py: line by line, the first call already raises. *)
Lemma c131_page_raises : forall m g, 2 <= m -> 0 <= g -> 8 <= 2 * m + g -> exists x, three_parts m g = Ok (Some x) /\ ppage x None None None = Raise IndexError /\
  (forall B (rest : list C -> res B), rppage rest x None None = Raise TypeError /\ rpmh rest x None None = Raise TypeError /\ rspwv rest x None None None None = Raise TypeError).
Proof.
  intros m g Hm Hg H8. destruct (c131_friedman m g Hm Hg H8) as (x & _ & E & L & _). exists x. split; [exact E|]. split.
  - apply c32_pseudo_page_always_raises; lia.
  - intros B rest. split; [apply c40_page_outcome|]. split; [apply c40_pmh_outcome|]. reflexivity.
Qed.

(** noplot_5_5_scalogram_singularity*.py: 256 voices of 64 samples. *)
Lemma c131_singularity_raises : forall (x : list C) ts, zlen x = 64 -> scalogram x ts (Some (1 / 100)%R) (Some (1 / 2)%R) (Some 256) (Some (Wnum 4)) = Raise IndexError.
Proof.
  intros x ts L. rewrite (c82_voices_refuted x ts (1 / 100)%R (1 / 2)%R 256 4); rewrite ?L; try lia; try lra; auto.
Qed.

(** The signals of plot_3_1_4_atoms_hamming_stft.py and of the 64-point impulse. *)
Example c131_atoms_example : exists x, atoms 128 [atom1 45 (25 / 100) 32; atom1 85 (25 / 100) 32] = Ok (map Some x) /\ zlen x = 128 /\ cnth x 44 <> RtoC 0.
Proof. destruct (c131_two_atoms 128 45 85 (25 / 100) (25 / 100) 32 ltac:(lia) ltac:(discriminate) ltac:(lia) ltac:(lia) ltac:(lia) ltac:(lra)) as (x & E & L & NZ & _). exists x. auto. Qed.
Example c131_impulse_example : exists x, anapulse 128 None = Ok x /\ zlen x = 128 /\ shown_log x.
Proof. apply c131_impulse; [lia|discriminate]. Qed.
