(** C114, continued: the values read from the dilation grid. *)
From Coq Require Import Reals ZArith List Lia Lra Bool.
From Coquelicot Require Import Coquelicot.
From Flocq Require Import Core Relative.
From Verif Require Import Py Scalars CSum DFT Spec M_base M_utils M_gen1 M_gen2 M_aff M_fp P_base P_mh T_utils T_aff T_aff2 T_aff3 T_fp.
Import ListNotations.
Local Open Scope Z_scope.

(** When the grid has all its points, entry i lies within a rounding of umax (i - m1) / m1, entry 0 is -umax and entry m1 is 0. *)
Lemma c114_values : forall k umax m1, (0 < umax)%R -> is_double umax -> 1 <= m1 <= 2 ^ 50 -> u_count umax m1 = 2 * m1 ->
  exists g, u_loop k umax m1 = Ok (map g (u_reads k m1)) /\ g 0 = (- umax)%R /\ g m1 = 0%R /\
  forall i, 0 <= i < 2 * m1 -> (Rabs (g i - umax * IZR (i - m1) / IZR m1) <= bpow radix2 (-53) * umax / IZR m1)%R.
Proof.
  intros k umax m1 H0 HD Hm HC. destruct (step_pos umax m1 H0 HD ltac:(lia)) as (d & Hd & ES & PS). assert (M0 : (1 <= IZR m1)%R) by (apply IZR_le; lia).
  set (lin := linspace1 (- umax) (umax - u_step umax m1) (2 * m1)). set (u := upd lin (Z.to_nat m1) 0%R).
  assert (LL : zlen lin = 2 * m1) by (unfold lin; rewrite linspace1_len; lia). assert (LU : zlen u = 2 * m1) by (unfold u; rewrite upd_zlen; exact LL).
  exists (fun i => nth (Z.to_nat i) u 0%R).
  assert (VL : forall i, 0 <= i < 2 * m1 -> nth (Z.to_nat i) lin 0%R = (- umax + IZR i * ((umax - u_step umax m1 - - umax) / IZR (2 * m1 - 1)))%R).
  { intros i Hi. unfold lin, linspace1. destruct (Z.eqb_spec (2 * m1) 1); [lia|]. unfold linspace. rewrite nth_map_arange by lia. reflexivity. }
  assert (UM : nth (Z.to_nat m1) u 0%R = 0%R) by (unfold u; apply nth_upd_eq; unfold zlen in LL; lia).
  assert (UO : forall i, 0 <= i -> i <> m1 -> nth (Z.to_nat i) u 0%R = nth (Z.to_nat i) lin 0%R) by (intros i Hi NE; unfold u; apply nth_upd_neq; lia).
  split; [|split; [|split]].
  - unfold u_loop, u_grid. rewrite HC. destruct (Z.ltb_spec (2 * m1) 0); [lia|]. fold lin. rewrite set_ok by lia. cbn [bind]. fold u. apply mapM_ok. intros i Hi. apply get_ok. rewrite LU.
    destruct k; cbn [u_reads] in Hi; [apply in_app_or in Hi; destruct Hi as [Hi|Hi]| |]; apply in_arange in Hi; lia.
  - rewrite UO by lia. rewrite VL by lia. ring.
  - exact UM.
  - intros i Hi. assert (BP := bpow_gt_0 radix2 (-53)). destruct (Z.eq_dec i m1) as [->|NE].
    + rewrite UM, Z.sub_diag. replace (0 - umax * 0 / IZR m1)%R with 0%R by (field; lra). rewrite Rabs_R0. apply Rmult_le_pos; [nra|left; apply Rinv_0_lt_compat; lra].
    + rewrite UO, VL by lia. rewrite ES. assert (M1 : (1 <= IZR (2 * m1 - 1))%R) by (apply IZR_le; lia). assert (I0 : (0 <= IZR i <= IZR (2 * m1 - 1))%R) by (split; apply IZR_le; lia).
      rewrite minus_IZR in *. rewrite mult_IZR in *. set (q := IZR m1) in *. rewrite (minus_IZR i). fold q. set (a := IZR i) in *.
      replace (- umax + a * ((umax - umax / q * (1 + d) - - umax) / (2 * q - 1)) - umax * (a - q) / q)%R with (- (d * (a / (2 * q - 1)) * (umax / q)))%R by (field; lra).
      rewrite Rabs_Ropp, !Rabs_mult. assert (QA : (0 <= a / (2 * q - 1) <= 1)%R). { split; [apply Rmult_le_pos; [lra|left; apply Rinv_0_lt_compat; lra]|]. apply (Rmult_le_reg_r (2 * q - 1)); [lra|]. unfold Rdiv. rewrite Rmult_assoc, Rinv_l by lra. lra. }
      assert (QU : (0 < umax / q)%R) by (apply Rdiv_lt_0_compat; lra). rewrite (Rabs_pos_eq (a / _)), (Rabs_pos_eq (umax / q)) by lra.
      replace (bpow radix2 (-53) * umax / q)%R with (bpow radix2 (-53) * 1 * (umax / q))%R by (field; lra). apply Rmult_le_compat_r; [lra|]. apply Rmult_le_compat; try lra. apply Rabs_pos.
Qed.
(** umax = 2, m1 = 1: the grid is (-2, 0). *)
Example c114_values_example : u_loop Dfl 2 1 = Ok [(-2)%R; 0%R].
Proof.
  assert (D2 : is_double 2) by (exists 1, 1; split; [lia|change (bpow radix2 1) with 2%R; ring]).
  destruct (c114_values Dfl 2 1 ltac:(lra) D2 ltac:(lia) (c114_power_of_two 2 0 ltac:(lra) D2 ltac:(lia))) as (g & E & G0 & G1 & _). rewrite E. cbn [u_reads]. change (arange 0 (2 * 1)) with [0; 1]. cbn [map]. rewrite G0, G1. do 2 f_equal. 
Qed.
