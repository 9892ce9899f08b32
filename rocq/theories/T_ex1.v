(** Worked cases beside the theorems on the short-time Fourier transform
    (C09 - C14), the ambiguity function (C33, C34), the power spectrum (C75)
    and the sweep of altes (C79). *)
From Coq Require Import Reals ZArith List Lia Lra Bool.
From Coquelicot Require Import Coquelicot.
From Verif Require Import Py Scalars CSum DFT Spec M_base M_stft P_base P_stft T_stft M_amb T_amb M_putils T_putils.
Import ListNotations.
Local Open Scope Z_scope.

Lemma root4_0 : root 4 0 = RtoC 1.
Proof. apply root_0. Qed.
Lemma root4_2 : root 4 2 = RtoC (-1).
Proof. rewrite (root_half 2 ltac:(lia) : root 4 2 = _). apply injective_projections; cbn; ring. Qed.
Lemma root4_1 : root 4 1 = Ci.
Proof.
  unfold root, cis. replace (2 * PI * IZR 1 / IZR 4)%R with (PI / 2)%R by (cbn; field).
  rewrite cos_PI2, sin_PI2. reflexivity.
Qed.
Lemma root4_3 : root 4 3 = (- Ci)%C.
Proof. change 3 with (2 + 1). rewrite root_plus, root4_2, root4_1. apply injective_projections; cbn; ring. Qed.
(** Replace every [root 4 k] by its value. *)
Ltac eval_root4 :=
  repeat match goal with
  | |- context [root 4 ?k] =>
    lazymatch eval vm_compute in (k mod 4) with
    | 0 => replace (root 4 k) with (RtoC 1) by (rewrite <- (root_mod 4 k) by lia; symmetry; exact root4_0)
    | 1 => replace (root 4 k) with Ci by (rewrite <- (root_mod 4 k) by lia; symmetry; exact root4_1)
    | 2 => replace (root 4 k) with (RtoC (-1)) by (rewrite <- (root_mod 4 k) by lia; symmetry; exact root4_2)
    | 3 => replace (root 4 k) with (- Ci)%C by (rewrite <- (root_mod 4 k) by lia; symmetry; exact root4_3)
    end
  end.

(** A Gaussian integer as a complex number. *)
Definition gi (z : Z * Z) : C := (IZR (fst z), IZR (snd z)).
Definition ex_x : list C := [RtoC 1; Ci; RtoC 2; RtoC (-1)].
Definition ex_w : list C := [RtoC 1; RtoC 1; RtoC 1].
(** The table executed in [stft_exec] (M_stft.v). *)
Definition ex_table : list (list (Z * Z)) :=
  [[(1,0);(0,-1);(-1,0);(0,1)]; [(1,1);(2,0);(1,-1);(0,0)]; [(3,1);(0,0);(-3,1);(0,2)]; [(1,1);(1,1);(3,-1);(3,-1)]].

Lemma ex_stft : forall f c, 0 <= f < 4 -> 0 <= c < 4 -> STFT ex_x ex_w 4 f (c - 1) = gi (nth (Z.to_nat f) (nth (Z.to_nat c) ex_table []) (0,0)).
Proof.
  intros f c Hf Hc. assert (F : f = 0 \/ f = 1 \/ f = 2 \/ f = 3) by lia. assert (D : c = 0 \/ c = 1 \/ c = 2 \/ c = 3) by lia.
  unfold STFT, sigf, winf. change (zlen ex_x) with 4. change (zlen ex_w) with 3. change ((3 - 1) / 2) with 1. eval_arange. rewrite !csum_cons, csum_nil.
  destruct F as [->|[->|[->| ->]]]; destruct D as [->|[->|[->| ->]]];
  repeat match goal with |- context [(?a <=? ?b)] => let v := eval vm_compute in (a <=? b) in change (a <=? b) with v | |- context [(?a <? ?b)] => let v := eval vm_compute in (a <? b) in change (a <? b) with v end; cbn [andb];
  match goal with |- _ = gi ?v => let w := eval vm_compute in v in change v with w end;
  eval_root4; unfold ex_x, ex_w; eval_cnth; apply injective_projections; cbn; ring.
Qed.

Lemma zlen_ex ts : ts = arange 0 4 -> ts_len (TsI ts) = 4.
Proof. intros ->. reflexivity. Qed.
Lemma ex_entry (x : list C) (o : rep C) : stft x (Some (TsI (arange 0 4))) (Some 4) (Some ex_w) = Ok o ->
  forall f c, 0 <= f < 4 -> 0 <= c < 4 -> at2 (r_tfr o) f c = STFT x ex_w 4 f (c - 1).
Proof.
  intros H f c Hf Hc. destruct (c11_stft_closed_form x (TsI (arange 0 4)) 4 ex_w f c ltac:(lia) ltac:(reflexivity) ltac:(lia) ltac:(rewrite zlen_ex; auto)) as [o' [H1 H2]].
  rewrite H in H1. injection H1 as <-. exact H2.
Qed.

(** The whole 4 x 4 transform of [1, i, 2, -1] with the window [1, 1, 1]. *)
Example c09_example : exists o, stft ex_x None None (Some ex_w) = Ok o /\ r_tfr o = map (map gi) ex_table.
Proof.
  destruct (c09_stft_total ex_x (TsI (arange 0 4)) 4 ex_w ltac:(lia)) as (o & H & Ht & L & K). exists o. split; [exact H|].
  rewrite zlen_ex in L by reflexivity.
  transitivity (map (fun c => map (fun f => at2 (r_tfr o) f c) (arange 0 4)) (arange 0 4)).
  - destruct (r_tfr o) as [|c0 [|c1 [|c2 [|c3 [|]]]]]; try (exfalso; unfold zlen in L; cbn [length] in L; lia).
    assert (M : forall c, In c [c0; c1; c2; c3] -> c = map (cnth c) (arange 0 4)) by (intros c Hc; rewrite <- (K c Hc); apply list_as_map).
    rewrite (M c0), (M c1), (M c2), (M c3) at 1 by (cbn [In]; auto). reflexivity.
  - eval_arange. cbn [map]. rewrite !(ex_entry _ _ H) by lia. rewrite !ex_stft by lia. reflexivity.
Qed.

(** 2 x + i y with y an impulse at sample 2: the entry in row 1, column 2 is 2*0 + i*(-i). *)
Example c10_example : exists ox oy oz, let y := [RtoC 0; RtoC 0; RtoC 1; RtoC 0] in
  stft ex_x (Some (TsI (arange 0 4))) (Some 4) (Some ex_w) = Ok ox /\ stft y (Some (TsI (arange 0 4))) (Some 4) (Some ex_w) = Ok oy /\
  stft (lincomb (RtoC 2) Ci ex_x y) (Some (TsI (arange 0 4))) (Some 4) (Some ex_w) = Ok oz /\
  at2 (r_tfr ox) 1 2 = RtoC 0 /\ at2 (r_tfr oy) 1 2 = (- Ci)%C /\ at2 (r_tfr oz) 1 2 = RtoC 1.
Proof.
  set (y := [RtoC 0; RtoC 0; RtoC 1; RtoC 0]).
  destruct (c10_stft_linear (RtoC 2) Ci ex_x y (TsI (arange 0 4)) 4 ex_w ltac:(lia) eq_refl) as (ox & oy & oz & Hx & Hy & Hz & E).
  exists ox, oy, oz. cbv zeta. do 3 (split; [assumption|]).
  assert (X : at2 (r_tfr ox) 1 2 = RtoC 0) by (rewrite (ex_entry _ _ Hx), ex_stft by lia; reflexivity).
  assert (Y : at2 (r_tfr oy) 1 2 = (- Ci)%C).
  { rewrite (ex_entry _ _ Hy) by lia. unfold STFT, sigf, winf. change (zlen y) with 4. change (zlen ex_w) with 3. change ((3 - 1) / 2) with 1. eval_arange. rewrite !csum_cons, csum_nil.
    repeat match goal with |- context [(?a <=? ?b)] => let v := eval vm_compute in (a <=? b) in change (a <=? b) with v | |- context [(?a <? ?b)] => let v := eval vm_compute in (a <? b) in change (a <? b) with v end. cbn [andb].
    eval_root4. unfold y, ex_w. eval_cnth. apply injective_projections; cbn; ring. }
  split; [exact X|]. split; [exact Y|]. rewrite E by (try rewrite zlen_ex; auto; lia). rewrite X, Y. apply injective_projections; cbn; ring.
Qed.

(** Column 2 sees the samples 1, i, 2: energy 6, and the squared moduli of the column sum to 4*6;
    its mean is the middle sample, i. *)
Example c12_example : exists o, stft ex_x (Some (TsI (arange 0 4))) (Some 4) (Some ex_w) = Ok o /\
  rsum (arange 0 4) (fun f => Cmod (at2 (r_tfr o) f 2) ^ 2)%R = 24%R /\
  csum (arange 0 4) (fun f => at2 (r_tfr o) f 2) = (RtoC 4 * Ci)%C.
Proof.
  destruct (c09_stft_total ex_x (TsI (arange 0 4)) 4 ex_w ltac:(lia)) as (o & H & _). exists o. split; [exact H|]. eval_arange. rewrite !csum_cons, csum_nil, !rsum_cons, rsum_nil.
  rewrite !(ex_entry _ _ H) by lia. rewrite !ex_stft by lia. repeat match goal with |- context [gi (nth ?a ?b ?c)] => let w := eval vm_compute in (nth a b c) in change (nth a b c) with w end. split.
  - rewrite !Cmod_sqr. cbn. ring.
  - apply injective_projections; cbn; ring.
Qed.

(** Modulating by one bin moves row 0 to row 1 with the phase of column 2: i * (3 + i). *)
Example c13_example : exists oy, stft (modulate 4 1 ex_x) (Some (TsI (arange 0 4))) (Some 4) (Some ex_w) = Ok oy /\ at2 (r_tfr oy) 1 2 = gi (-1, 3).
Proof.
  destruct (c13_stft_modulation ex_x (TsI (arange 0 4)) 4 ex_w 1 ltac:(lia)) as (ox & oy & Hx & Hy & E). exists oy. split; [exact Hy|].
  destruct (E 1 2 ltac:(lia) ltac:(rewrite zlen_ex; auto; lia)) as [-> _]. change ((1 - 1) mod 4) with 0. change (1 * (2 - 1)) with 1.
  rewrite (ex_entry _ _ Hx), ex_stft by lia. rewrite root4_1.
  match goal with |- context [gi (nth ?a ?b ?c)] => let w := eval vm_compute in (nth a b c) in change (nth a b c) with w end. apply injective_projections; cbn; ring.
Qed.

(** Delaying by one sample moves column 2 to column 3. *)
Example c14_example : exists oy, stft (delay 1 ex_x) (Some (TsI (arange 0 5))) (Some 4) (Some ex_w) = Ok oy /\ at2 (r_tfr oy) 0 3 = gi (3, 1).
Proof.
  destruct (c14_stft_delay ex_x (TsI (arange 0 4)) (TsI (arange 0 5)) 4 ex_w 1 ltac:(lia) ltac:(reflexivity) ltac:(lia)) as (ox & oy & Hx & Hy & E). exists oy. split; [exact Hy|].
  change 3 with (2 + 1). rewrite E by (cbn [ts_len]; rewrite ?arange_zlen; lia). rewrite (ex_entry _ _ Hx), ex_stft by lia. reflexivity.
Qed.

(** Ambiguity function of [1, i, 2, -1] at four Doppler bins: the energy 7 at the origin,
    and opposite values at opposite lags and Dopplers. *)
Example c33_example : exists naf lag xi, narrow_band ex_x None None = Ok (naf, lag, xi) /\ lag = [-1; 0; 1] /\
  at2 naf 2 1 = RtoC 7 /\ at2 naf 2 2 = gi (2, 1) /\ at2 naf 3 2 = gi (0, -3).
Proof.
  destruct (c33_outcome ex_x (nb_lags 4) 4 ltac:(lia)) as [[(t & Ht & A & B) _]|[_ (naf & xi & E & _ & _ & _ & _ & V)]].
  { exfalso. change (zlen ex_x) with 4 in *. lia. }
  exists naf, (nb_lags 4), xi. split; [exact E|]. split; [reflexivity|]. change (4 / 2) with 2 in V. change (zlen (nb_lags 4)) with 3 in V.
  rewrite !V by lia. unfold AF, sigf. change (zlen ex_x) with 4. eval_arange. rewrite !csum_cons, !csum_nil.
  repeat match goal with |- context [nth (Z.to_nat ?a) (nb_lags 4) 0] => let w := eval vm_compute in (nth (Z.to_nat a) (nb_lags 4) 0) in change (nth (Z.to_nat a) (nb_lags 4) 0) with w end.
  repeat match goal with |- context [(?a <=? ?b)] => let v := eval vm_compute in (a <=? b) in change (a <=? b) with v | |- context [(?a <? ?b)] => let v := eval vm_compute in (a <? b) in change (a <? b) with v end. cbn [andb].
  eval_root4. unfold ex_x. eval_cnth. repeat split; apply injective_projections; cbn; ring.
Qed.
Example c34_example : exists naf lag xi, narrow_band ex_x None None = Ok (naf, lag, xi) /\ at2 naf 3 2 = gi (0, -3) /\ at2 naf 1 0 = gi (0, 3).
Proof.
  destruct c33_example as (naf & lag & xi & E & L & _ & _ & V). exists naf, lag, xi. split; [exact E|]. split; [exact V|].
  rewrite (c34_hermitian ex_x (nb_lags 4) 4 naf lag xi 3 2 1 0); try reflexivity; try (change (zlen (nb_lags 4)) with 3); try lia; [|exact E].
  rewrite V. apply injective_projections; cbn; ring.
Qed.

(** Power spectrum of [1, i, 2, -1], zero frequency in the middle: total 28 = 4 * 7. *)
Example c75_example : map (rnth (get_spectrum ex_x)) [0; 1; 2; 3] = [17%R; 5%R; 5%R; 1%R].
Proof.
  destruct (c75_spectrum_total ex_x) as (_ & _ & V). change (zlen ex_x) with 4 in V. change (4 / 2) with 2 in V. cbn [map]. rewrite !V by lia.
  repeat match goal with |- context [?a mod 4] => let v := eval vm_compute in (a mod 4) in change (a mod 4) with v end.
  rewrite !fft_nth by (change (zlen ex_x) with 4; lia). change (zlen ex_x) with 4. eval_arange. rewrite !csum_cons, !csum_nil. eval_root4. unfold ex_x. eval_cnth. rewrite !Cmod_sqr.
  cbn. repeat f_equal; ring.
Qed.
