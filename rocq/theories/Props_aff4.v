(** Property theorems, restated from T_aff4.v (generated by tools/genprops.py).
    C68, C125: changes of the signal and the affine representations. *)

From Coq Require Import Reals ZArith List Lia Lra Bool.
From Coquelicot Require Import Coquelicot.
From Flocq Require Import Core.
From Verif Require Import Py Scalars CSum DFT Spec M_base M_utils M_putils M_post M_gen1 M_gen2 M_gen3 M_aff M_wb P_base P_spec T_post T_utils T_putils T_dom T_gen1 T_gen2 T_hil T_key T_noise T_misc T_misc2 T_aff T_aff2 T_wb T_aff3 T_post2 T_aff4.
Import ListNotations.
Local Open Scope Z_scope.

(** *** C68: the scalogram integrates to the in-band energy over the number of voices *)
Theorem C68_scalogram_total : forall x ts fmin fmax nv wp m t f wt, 2 <= zlen x -> (0 < fmin < fmax)%R -> (fmax <= 1 / 2)%R ->
  scalogram x ts (Some fmin) (Some fmax) nv wp = Ok (Some m, t, f, wt) ->
  let N := zlen x in let a := ZnearestE (fmin * IZR (N - 2)) in let b := ZnearestE (fmax * IZR (N - 2)) in
  let E := rsum (arange (a + 1) (b + 2)) (fun k => ((if (2 * k <? N)%Z then 2 else if (2 * k =? N)%Z then 1 else 0) * Cmod (cnth (fft (map RtoC (map Re x))) k)) ^ 2)%R in
  integrate_2d m N (Some (map IZR t)) (Some f) = Ok (E / IZR (match nv with Some v => v | None => N end))%R.
Proof. exact c68_scalogram_total. Qed.
Print Assumptions C68_scalogram_total.

(** *** C125 *)
(** The scalogram, with an explicit band, sees the real part up to a constant. *)
Theorem C125_constant : forall (x y : list C) (c : R) ts fmin fmax nv wp, 0 < zlen x -> map Re y = map (fun v => Re v + c)%R x ->
  scalogram y ts (Some fmin) (Some fmax) nv wp = scalogram x ts (Some fmin) (Some fmax) nv wp.
Proof. exact c125_constant. Qed.
Print Assumptions C125_constant.

Theorem C125_scalogram_scale : forall (a : R) (x : list C) ts fmin fmax nv wp, a <> 0%R ->
  scalogram (map (fun v => v * RtoC a)%C x) ts fmin fmax nv wp =
  match scalogram x ts fmin fmax nv wp with
  | Ok (m, t, f, wt) => Ok (option_map (map (map (fun v => v * a ^ 2)%R)) m, t, f, map (map (fun v => v * RtoC a)%C) wt)
  | Raise e => Raise e
  end.
Proof. exact c125_scalogram_scale. Qed.
Print Assumptions C125_scalogram_scale.

Theorem C125_affine_scale : forall spl form k (a : R) (x : list C) ts fmin fmax nv, a <> 0%R ->
  (forall xs ys xi c, spl xs (map (fun v => v * c)%R ys) xi = map (fun v => v * c)%R (spl xs ys xi)) ->
  (o <- aff_new k (map (fun v => v * RtoC a)%C x) ts fmin fmax nv ;; aff_run spl form o) =
  match (o <- aff_new k x ts fmin fmax nv ;; aff_run spl form o) with
  | Ok (m, t, f) => Ok (option_map (map (map (fun v => v * a ^ 2)%R)) m, t, f)
  | Raise e => Raise e
  end.
Proof. exact c125_affine_scale. Qed.
Print Assumptions C125_affine_scale.

(** Only the real part is read. *)
Theorem C125_real : forall (x y : list C), map Re x = map Re y ->
  (forall ts fmin fmax nv wp, scalogram x ts fmin fmax nv wp = scalogram y ts fmin fmax nv wp) /\
  (forall spl form k ts fmin fmax nv, (o <- aff_new k x ts fmin fmax nv ;; aff_run spl form o) = (o <- aff_new k y ts fmin fmax nv ;; aff_run spl form o)).
Proof. exact c125_real. Qed.
Print Assumptions C125_real.

Example C125_example : exists m m' f wt wt',
  scalogram [RtoC 4; RtoC 2] None (Some (1 / 8)%R) (Some (1 / 4)%R) None (Some (Wnum 1%R)) = Ok (Some m, [0; 1], f, wt) /\
  integrate_2d m 2 (Some [0%R; 1%R]) (Some f) = Ok 2%R /\
  scalogram [RtoC 12; RtoC 6] None (Some (1 / 8)%R) (Some (1 / 4)%R) None (Some (Wnum 1%R)) = Ok (Some m', [0; 1], f, wt') /\
  integrate_2d m' 2 (Some [0%R; 1%R]) (Some f) = Ok 18%R.
Proof. exact c125_example. Qed.
