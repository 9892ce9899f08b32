(** C82: the scalogram with a negative number of voices, with none, with one,
    and with two voices for three samples. *)
From Coq Require Import Reals ZArith List Lia Lra Bool.
From Coquelicot Require Import Coquelicot.
From Flocq Require Import Core.
From Verif Require Import Py Scalars CSum DFT Spec M_base M_utils M_putils M_post M_gen1 M_gen2 M_gen3 M_aff M_wb P_base P_spec T_post T_utils T_putils T_dom T_gen1 T_gen2 T_hil T_key T_noise T_misc T_misc2 T_aff T_aff2 T_post2.
Import ListNotations.
Local Open Scope Z_scope.

Lemma c82_negative_voices : forall x ts fmin fmax nv wp, 0 < zlen x -> nv < 0 ->
  scalogram x ts (Some fmin) (Some fmax) (Some nv) wp = Raise ValueError.
Proof.
  intros x ts fmin fmax nv wp HN Hv. unfold scalogram. cbv zeta. cbn [affine_band bind]. destruct (scal_z_ok x ltac:(lia)) as (z & Hz & LZ). rewrite Hz. cbn [bind]. destruct (Z.ltb_spec nv 0) as [_|?]; [reflexivity|lia].
Qed.
(** An axis of at most one entry. *)
Lemma integrate_few rows n x y : 1 <= n -> 2 <= zlen x -> (forall r, In r rows -> zlen r = n) -> zlen y <= 1 -> 2 <= zlen rows ->
  integrate_2d rows n (Some x) (Some y) = if zlen rows =? 2 then Ok 0%R else Raise ValueError.
Proof.
  intros Hn Hx Hr Hy Hm. unfold integrate_2d. set (m := zlen rows) in *.
  rewrite (mapM_ok _ (fun r => rnth r 0)). 2:{ intros r Hi. apply (get_ok 0%R). rewrite (Hr r Hi). lia. }
  cbn [bind]. rewrite (mapM_ok _ (fun r => rnth r (n - 1))). 2:{ intros r Hi. apply (get_ok 0%R). rewrite (Hr r Hi). lia. }
  cbn [bind]. rewrite !(get_ok 0%R) by lia. cbn [bind]. set (s := zipw _ rows _).
  assert (LS : zlen s = m). { unfold s. rewrite zipw_zlen; [reflexivity|]. unfold zlen. rewrite combine_length, !map_length. lia. }
  assert (L1 : length (tl1 s) = Z.to_nat (m - 1)) by (unfold zlen in LS; destruct s; cbn [tl1 length] in *; lia).
  assert (L2 : length (prefix s (m - 1)) = Z.to_nat (m - 1)) by (unfold prefix; rewrite firstn_length; unfold zlen in LS; lia).
  unfold bcast at 1. rewrite L1, L2, Nat.eqb_refl. cbn [bind]. set (dm := zipw Rplus _ _). assert (LD : length dm = Z.to_nat (m - 1)). { unfold dm. assert (Q : zlen (zipw Rplus (prefix s (m - 1)) (tl1 s)) = zlen (prefix s (m - 1))) by (apply zipw_zlen; unfold zlen; lia). unfold zlen in Q. lia. }
  assert (L3 : prefix y (m - 1) = y) by (unfold prefix; apply firstn_all2; unfold zlen in Hy; lia). rewrite L3.
  assert (E : bcast Rminus (tl1 y) y = Ok []). { unfold zlen in Hy. destruct y as [|y0 [|y1 y]]; cbn [length] in Hy; [reflexivity|reflexivity|lia]. }
  rewrite E. cbn [bind map]. clearbody dm. destruct (Z.eqb_spec m 2) as [M|M].
  - rewrite M in LD. destruct dm as [|d0 [|d1 dm]]; cbn in LD; try lia. reflexivity.
  - destruct dm as [|d0 [|d1 dm]]; cbn [length] in LD; try lia. reflexivity.
Qed.
Lemma c82_no_voices : forall x ts fmin fmax wp, 2 <= zlen x ->
  scalogram x ts (Some fmin) (Some fmax) (Some 0) (Some (Wnum wp)) = if zlen x =? 2 then Ok (None, [0; 1], [], []) else Raise ValueError.
Proof.
  intros x ts fmin fmax wp HN. unfold scalogram. cbv zeta. cbn [affine_band bind]. destruct (scal_z_ok x ltac:(lia)) as (z & Hz & LZ). rewrite Hz. cbn [bind]. change (0 <? 0) with false. cbv iota.
  assert (LG : forall a b, logspace a b 0 = []) by reflexivity.
  assert (SR : scal_rows z (arange 0 (zlen x)) wp fmin fmax 0 (zlen x) = Ok ([], repeat (repeat 0%R (Z.to_nat (zlen x))) (Z.to_nat (zlen x)))).
  { unfold scal_rows. cbv zeta. rewrite arange_zlen by lia. replace (Z.max 0 (zlen x - 0)) with (zlen x) by lia. rewrite Z.sub_0_r. destruct (Rlt_dec wp 0); reflexivity. }
  rewrite SR. cbn [bind]. rewrite LG. rewrite integrate_few.
  - unfold zlen at 1. rewrite repeat_length, Z2Nat.id by lia. destruct (Z.eqb_spec (zlen x) 2) as [E|_]; [|reflexivity]. rewrite E. cbn [bind]. destruct (Req_EM_T 0 0) as [_|?]; [reflexivity|lra].
  - lia.
  - rewrite zlen_map_arange; lia.
  - intros r Hr. apply repeat_spec in Hr. subst r. unfold zlen at 1. rewrite repeat_length. lia.
  - cbn. lia.
  - unfold zlen at 1. rewrite repeat_length. lia.
Qed.
(** One voice: it is fmin, at the scale fmax / fmin. *)
Lemma c82_one_voice : forall x ts fmin fmax wp, 2 <= zlen x -> (0 < fmin < fmax)%R -> (1 / 2 < wp)%R \/ (wp = 0%R /\ (fmax <= 1 / 2)%R) ->
  let r := scalogram x ts (Some fmin) (Some fmax) (Some 1) (Some (Wnum wp)) in
  if zlen x =? 2 then exists w, r = Ok (None, [0; 1], [fmin], [w]) /\ zlen w = 2 else r = Raise ValueError.
Proof.
  intros x ts fmin fmax wp HN Hf Hw. cbv zeta. unfold scalogram. cbv zeta. cbn [affine_band bind]. destruct (scal_z_ok x ltac:(lia)) as (z & Hz & LZ). rewrite Hz. cbn [bind]. change (1 <? 0) with false. cbv iota.
  assert (P10 : forall v, (0 < v)%R -> Rpower 10 (log10 v) = v).
  { intros v Hv. unfold Rpower, log10. replace (ln v / ln 10 * ln 10)%R with (ln v); [now apply exp_ln|]. field. apply Rgt_not_eq. rewrite <- ln_1. apply ln_increasing; lra. }
  assert (R1 : (1 < fmax / fmin)%R) by (apply (Rmult_lt_reg_r fmin); [lra|]; unfold Rdiv; rewrite Rmult_assoc, Rinv_l; lra).
  assert (LF : logspace (log10 fmin) (log10 fmax) 1 = [fmin]) by (unfold logspace, linspace1; cbn [Z.eqb Pos.eqb map]; rewrite P10 by lra; reflexivity).
  assert (LA : logspace (log10 (fmax / fmin)) (log10 1) 1 = [(fmax / fmin)%R]) by (unfold logspace, linspace1; cbn [Z.eqb Pos.eqb map]; rewrite P10 by lra; reflexivity).
  assert (SR : exists w q, scal_rows z (arange 0 (zlen x)) wp fmin fmax 1 (zlen x) = Ok ([w], q :: repeat (repeat 0%R (Z.to_nat (zlen x))) (Z.to_nat (zlen x - 1))) /\ zlen w = zlen x /\ zlen q = zlen x).
  { unfold scal_rows. cbv zeta. rewrite LF, LA. rewrite arange_zlen by lia. replace (Z.max 0 (zlen x - 0)) with (zlen x) by lia. destruct (Rlt_dec wp 0) as [|_]; [lra|].
    change (arange 0 1) with [0]. cbn [mapM]. change (rnth [fmin] 0) with fmin. change (rnth [(fmax / fmin)%R] 0) with (fmax / fmin)%R. destruct (Z.ltb_spec 0 (zlen x)); [|lia]. rewrite <- LZ. destruct (Rlt_dec 0 wp) as [W|W].
    - rewrite morlet_row_ok; [|apply near_ge_1; destruct Hw as [Hw|Hw]; nra|lia|lra]. cbn [bind map]. eexists _, _. split; [reflexivity|]. cbn [fst snd]. rewrite !zlen_map_arange; lia.
    - destruct Hw as [Hw|[Hw Hm]]; [lra|]. destruct (mexhat_row_ok z fmin (fmax / fmin) ltac:(lra) ltac:(lra) ltac:(lia)) as [_ E]. rewrite E. cbn [bind map]. eexists _, _. split; [reflexivity|]. cbn [fst snd]. rewrite !zlen_map_arange; lia. }
  destruct SR as (w & q & SR & LW & LQ). rewrite SR. cbn [bind]. rewrite LF.
  assert (LR : zlen (q :: repeat (repeat 0%R (Z.to_nat (zlen x))) (Z.to_nat (zlen x - 1))) = zlen x) by (unfold zlen at 1; cbn [length]; rewrite repeat_length; lia). rewrite integrate_few.
  - rewrite LR. destruct (Z.eqb_spec (zlen x) 2) as [E|_].
    + exists w. rewrite E in *. cbn [bind]. destruct (Req_EM_T 0 0) as [_|?]; [|lra]. split; [reflexivity|exact LW].
    + reflexivity.
  - lia.
  - rewrite zlen_map_arange; lia.
  - intros r [<-|Hr]; [exact LQ|]. apply repeat_spec in Hr. subst r. unfold zlen at 1. rewrite repeat_length. lia.
  - cbn. lia.
  - lia.
Qed.
(** Two voices for three samples: the axis of two frequencies broadcasts against
    the three rows and the integral comes out over the two voices, so that the
    normalisation is right; the matrix has a third row, of zeros. *)
Lemma c82_two_voices : forall x ts fmin fmax wp, zlen x = 3 -> (0 < fmin < fmax)%R -> (1 / 2 < wp)%R \/ (wp = 0%R /\ (fmax <= 1 / 2)%R) ->
  exists z wt a0 b0 c0 a1 b1 c1, scal_z x = Ok z /\
  (a0, b0, c0) = (voice z fmin fmax wp 2 0 0, voice z fmin fmax wp 2 0 1, voice z fmin fmax wp 2 0 2) /\
  (a1, b1, c1) = (voice z fmin fmax wp 2 1 0, voice z fmin fmax wp 2 1 1, voice z fmin fmax wp 2 1 2) /\
  let i := ((a0 / 2 + b0 + c0 / 2 + (a1 / 2 + b1 + c1 / 2)) / 2 * (fmax - fmin))%R in
  let k := (scal_mult z 3 fmin fmax / i)%R in
  scalogram x ts (Some fmin) (Some fmax) (Some 2) (Some (Wnum wp)) =
  Ok (if Req_EM_T i 0 then None else Some (map (map (fun v => v * k / 2)%R) [[a0; b0; c0]; [a1; b1; c1]; [0; 0; 0]%R]), [0; 1; 2], [fmin; fmax], wt).
Proof.
  intros x ts fmin fmax wp HN Hf Hw. unfold scalogram. cbv zeta. rewrite HN. cbn [affine_band bind]. destruct (scal_z_ok x ltac:(lia)) as (z & Hz & LZ). rewrite Hz. cbn [bind]. change (2 <? 0) with false. cbv iota.
  rewrite HN in LZ. assert (SR := scal_rows_ok z wp fmin fmax 2 Hf ltac:(lia) Hw). cbv zeta in SR. rewrite LZ in SR.
  exists z. eexists. exists (voice z fmin fmax wp 2 0 0), (voice z fmin fmax wp 2 0 1), (voice z fmin fmax wp 2 0 2), (voice z fmin fmax wp 2 1 0), (voice z fmin fmax wp 2 1 1), (voice z fmin fmax wp 2 1 2).
  split; [reflexivity|]. split; [reflexivity|]. split; [reflexivity|].
  rewrite SR. cbn [bind]. change (arange 0 2) with [0; 1]. change (arange 0 3) with [0; 1; 2].
  change (repeat (repeat 0%R (Z.to_nat 3)) (Z.to_nat (3 - 2))) with [[0; 0; 0]%R]. cbn [map app].
  assert (LF : logspace (log10 fmin) (log10 fmax) 2 = [fmin; fmax]).
  { destruct (c69_scalogram fmin fmax 2 Hf ltac:(lia)) as (E & _). assert (F0 := geo_at fmin fmax 2 0 Hf ltac:(lia) ltac:(lia)). assert (F1 := geo_at fmin fmax 2 1 Hf ltac:(lia) ltac:(lia)).
    assert (P : (0 < fmax / fmin)%R) by (apply Rdiv_lt_0_compat; lra).
    change (IZR (2 - 1)) with 1%R in F0, F1. replace (0 / 1)%R with 0%R in F0 by field. replace (1 / 1)%R with 1%R in F1 by field. rewrite Rpower_O in F0 by exact P. rewrite Rpower_1 in F1 by exact P.
    rewrite E. unfold geo_grid in *. change (arange 0 2) with [0; 1] in *. cbn [map] in *. unfold rnth in F0, F1. cbn [nth] in F0. change (Z.to_nat 0) with 0%nat in F0. change (Z.to_nat 1) with 1%nat in F1. cbn [nth] in F0, F1. rewrite F0, F1. f_equal; [ring|f_equal]. field. lra. }
  rewrite LF. set (a0 := voice z fmin fmax wp 2 0 0). set (b0 := voice z fmin fmax wp 2 0 1). set (c0 := voice z fmin fmax wp 2 0 2). set (a1 := voice z fmin fmax wp 2 1 0). set (b1 := voice z fmin fmax wp 2 1 1). set (c1 := voice z fmin fmax wp 2 1 2).
  set (i := (_ / 2 * (fmax - fmin))%R).
  assert (I : integrate_2d [[a0; b0; c0]; [a1; b1; c1]; [0; 0; 0]%R] 3 (Some [0; 1; 2]%R) (Some [fmin; fmax]) = Ok i).
  { unfold integrate_2d. cbn -[Rplus Rminus Rmult Rdiv rsum Pos.to_nat]. change (Pos.to_nat 2) with 2%nat. change (Pos.to_nat 1) with 1%nat. cbn -[Rplus Rminus Rmult Rdiv rsum]. rewrite !rsum_cons, !rsum_nil. f_equal. unfold i. field. }
  rewrite I. cbn [bind]. reflexivity.
Qed.
(** Sixteen samples of a constant and one voice. *)
Example c82_voices_example : scalogram (repeat (RtoC 1) 16) None (Some (1 / 20)%R) (Some (4 / 10)%R) (Some 1) (Some (Wnum 4%R)) = Raise ValueError
  /\ scalogram (repeat (RtoC 1) 16) None (Some (1 / 20)%R) (Some (4 / 10)%R) (Some (-1)) None = Raise ValueError
  /\ scalogram [RtoC 1; RtoC 2] None (Some (1 / 20)%R) (Some (4 / 10)%R) (Some 0) (Some (Wnum 4%R)) = Ok (None, [0; 1], [], []).
Proof.
  assert (L : zlen (repeat (RtoC 1) 16) = 16) by reflexivity. split; [|split].
  - assert (Q := c82_one_voice (repeat (RtoC 1) 16) None (1 / 20)%R (4 / 10)%R 4%R). cbv zeta in Q. rewrite L in Q. apply Q; [lia|lra|left; lra].
  - apply c82_negative_voices; [rewrite L|]; lia.
  - rewrite c82_no_voices; [reflexivity|]. change (zlen [RtoC 1; RtoC 2]) with 2. lia.
Qed.
