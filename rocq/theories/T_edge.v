(** C67, C77: defaults and degenerate arguments of atoms and anasing. *)
From Coq Require Import Reals ZArith List Lia Lra Bool.
From Coquelicot Require Import Coquelicot.
From Verif Require Import Py Scalars CSum DFT Spec M_base P_base M_gen1 M_gen2 M_gen3 T_hil.
Import ListNotations.
Local Open Scope Z_scope.

(** One-dimensional coordinates. *)
Lemma c67_one_row : forall n l, 
  (n < 0 -> atoms_1d n l = Raise ValueError) /\ (0 <= n -> atoms_1d n [] = Ok (repeat (Some (RtoC 0)) (Z.to_nat n))) /\ (0 <= n -> atoms n [] = Ok (repeat (Some (RtoC 0)) (Z.to_nat n))).
Proof.
  intros n l. repeat split; intros Hn; unfold atoms_1d, atoms; destruct (Z.ltb_spec n 0); try reflexivity; lia.
Qed.
(** The default time of the singularity is n/2. *)
Lemma c77_default : forall count n h, anasing count n None h = anasing count n (Some (IZR n / 2)%R) h.
Proof. reflexivity. Qed.
(** With h > 0 and the default time the real part is symmetric about n/2 and largest there. *)
Lemma c77_default_cusp : forall count m h y, 1 <= m -> (0 < h)%R -> anasing count (2 * m) None h = Ok (Some y) ->
  (forall k, 1 <= k < m -> rnth (map Re y) (m - k) = rnth (map Re y) (m + k)) /\
  (forall k, 0 <= k < 2 * m -> (rnth (map Re y) k <= rnth (map Re y) m)%R).
Proof.
  intros count m h y Hm Hh H. rewrite c77_default in H. destruct (c77_cusp count (2 * m) (IZR (2 * m) / 2)%R h y ltac:(lia) Hh H) as (M & V & O).
  assert (E : (IZR (2 * m) / 2 = IZR m)%R) by (rewrite mult_IZR; field). rewrite E in V, O. split.
  - intros k Hk. rewrite !V by lia. rewrite minus_IZR, plus_IZR. replace (IZR m - IZR k - IZR m)%R with (- IZR k)%R by ring. replace (IZR m + IZR k - IZR m)%R with (IZR k) by ring. now rewrite Rabs_Ropp.
  - intros k Hk. apply O; try lia. replace (IZR m - IZR m)%R with 0%R by ring. rewrite Rabs_R0. apply Rabs_pos.
Qed.
Example c77_default_example : exists y, anasing sing_count 8 None 1 = Ok (Some y) /\ rnth (map Re y) 3 = rnth (map Re y) 5.
Proof.
  destruct (c77_exact 8 None 1%R ltac:(lia)) as [r Hr]. assert (exists y, r = Some y) as [y ->].
  { unfold anasing in Hr. destruct (Rle_dec 1 0); [lra|]. destruct (hilbert _) as [z|]; [|discriminate]. cbn [bind] in Hr. injection Hr as <-. eauto. }
  exists y. split; [exact Hr|]. destruct (c77_default_cusp sing_count 4 1 y ltac:(lia) ltac:(lra) Hr) as [S _]. exact (S 1 ltac:(lia)).
Qed.
