(** C39: which cells of the reassigned pseudo Wigner-Ville distribution move, and how far. *)
From Coq Require Import Reals ZArith List Lia Lra Bool.
From Coquelicot Require Import Coquelicot.
From Flocq Require Import Core.
From Verif Require Import Py Scalars CSum DFT Spec M_base M_stft M_cohen M_putils M_reas P_base P_stft P_spec T_key T_noise T_reas T_reas2.
Import ListNotations.
Local Open Scope Z_scope.

(** Row j - 1 - q modulo n, q an integer nearest to the displacement
    n Im(S) / (2 pi tfr), the even one in case of a tie. *)
Lemma c39_nearest : forall x ts n w tfr rtfr vec, rpwv x ts n w = Ok (Some (tfr, rtfr, vec)) ->
  let l := rp_ts x ts in let w := rp_w x n w in let n := rp_n x n in
  forall j i, 0 <= j < n -> 0 <= i < zlen l -> forall r, vent vec j i = Some r ->
  let ti := nth (Z.to_nat i) l 0 in
  exists d q, derive_window (rp_fw w) = Ok (Some d) /\ rdest vec j i = (j - 1 - q) mod n /\
   let a := (Im (rp_S x (rp_fw w) d n ti j) * (IZR n / rent tfr j i / (2 * PI)))%R in
   (Rabs (a - IZR q) <= / 2)%R /\ (Rabs (a - IZR q) = / 2 -> Z.even q = true)%R.
Proof.
  intros x ts n w tfr rtfr vec H l w' n' j i Hj Hi r Hv ti. destruct (c39_vectors x ts n w tfr rtfr vec H) as (dh & Hd & V). destruct (V j i Hj Hi r Hv) as (d & -> & E). exists d.
  set (a := (Im (rp_S x (rp_fw w') d n' ti j) * (IZR n' / rent tfr j i / (2 * PI)))%R). exists (ZnearestE a). split; [exact Hd|]. split; [rewrite E; unfold rp_df; fold n' w' l ti a; f_equal; lia|]. cbv zeta. split; [apply Znearest_half|].
  intros T. assert (Q := Znearest_N_strict (fun t => negb (Z.even t)) a). unfold Znearest. 
  assert (F := Zfloor_lb a). assert (G := Zfloor_ub a).
  assert (HC : (a - IZR (Zfloor a) = / 2)%R).
  { destruct (Req_dec (a - IZR (Zfloor a)) (/ 2)) as [|N]; auto. specialize (Q N). lra. }
  rewrite HC, Rcompare_Eq by reflexivity. rewrite Zceil_floor_neq by (intros Q'; rewrite Q' in HC; lra). destruct (Z.even (Zfloor a)) eqn:EV; cbn [negb]; auto. rewrite Z.even_add, EV. reflexivity.
Qed.
(** The cells that move are those above a millionth of the mean power of the samples
    numbered from the least to the greatest instant. *)
Lemma c39_moved : forall x ts n w tfr rtfr vec, rpwv x ts n w = Ok (Some (tfr, rtfr, vec)) ->
  let l := rp_ts x ts in let n := rp_n x n in
  forall a b, In a l -> In b l -> (forall t, In t l -> a <= t <= b) -> 0 <= a -> b < zlen x ->
  forall j i, 0 <= j < n -> 0 <= i < zlen l ->
  (vent vec j i <> None <-> (1 / 1000000 * (rsum (arange a (b + 1)) (fun k => Cmod (cnth x k) ^ 2) / IZR (b + 1 - a)) < Rabs (rent tfr j i))%R).
Proof.
  intros x ts n w tfr rtfr vec H l n' a b Ia Ib Iab Ha Hb j i Hj Hi. assert (Hab := Iab b Ib). apply rpwv_run in H. cbv zeta in H. fold l n' in H.
  destruct H as (Hn & Ho & Hc0 & Hbd & St & Sr & Ht & mn & mx & dh & Hmn & Hmx & Hd & Hv & Hdn & Hr).
  assert (mn = a). { apply zmin_spec in Hmn. destruct Hmn as [A B]. assert (Q := Iab mn A). specialize (B a Ia). lia. }
  assert (mx = b). { apply zmax_spec in Hmx. destruct Hmx as [A B]. assert (Q := Iab mx A). specialize (B b Ib). lia. }
  subst mn mx. rewrite Hv by auto.
  assert (E : pyslice x a (b + 1) = map (fun k => cnth x k) (arange a (b + 1))).
  { unfold pyslice. cbv zeta. destruct (Z.ltb_spec a 0); [lia|]. destruct (Z.ltb_spec (b + 1) 0); [lia|]. rewrite !Z.min_l by lia. apply (nth_ext _ _ (RtoC 0) (RtoC 0)).
    - rewrite firstn_length, skipn_length, map_length. assert (L := arange_zlen a (b + 1)). unfold zlen in *. lia.
    - intros k Hk. rewrite firstn_length, skipn_length in Hk. rewrite (nth_indep (map _ _) (RtoC 0) (cnth x 0)) by (rewrite map_length; assert (L := arange_zlen a (b + 1)); unfold zlen in *; lia).
      rewrite (map_nth (fun k => cnth x k)). unfold arange. rewrite (nth_indep _ 0 (a + Z.of_nat 0)) by (rewrite map_length, seq_length; lia). rewrite (map_nth (fun i => a + Z.of_nat i)), seq_nth by lia. unfold cnth. rewrite nth_firstn by lia. rewrite nth_skipn. f_equal. lia. }
  assert (T : rp_thr x a b = Some (1 / 1000000 * (rsum (arange a (b + 1)) (fun k => Cmod (cnth x k) ^ 2) / IZR (b + 1 - a)))%R).
  { unfold rp_thr. rewrite E. unfold mean2. rewrite zlen_map, arange_zlen, rsum_map, Z.max_r by lia. destruct (map _ (arange a (b + 1))) eqn:Q; [|reflexivity]. exfalso. apply (f_equal zlen) in Q. rewrite zlen_map, arange_zlen in Q. unfold zlen in Q. cbn in Q. lia. }
  rewrite T. unfold above. destruct (Rlt_dec _ _); split; intros; try congruence; try discriminate.
Qed.
(** Signal [3, 1, 2], instant 1, two bins: both cells hold 9 and move, the threshold being
    a millionth of the power of the sample numbered 1. *)
Example c39_moved_example : exists tfr rtfr vec, rpwv [RtoC 3; RtoC 1; RtoC 2] (Some [1]) (Some 2) (Some ones3) = Ok (Some (tfr, rtfr, vec)) /\
  rent tfr 0 0 = 9%R /\ vent vec 0 0 <> None.
Proof.
  set (x := [RtoC 3; RtoC 1; RtoC 2]). destruct (c39_outcome x [1] 2 ones3 ltac:(lia)) as (_ & _ & O). cbv zeta in O.
  specialize (O ltac:(discriminate) ltac:(change (zlen ones3) with 3; lia) ltac:(discriminate)).
  assert (R : exists o, rpwv x (Some [1]) (Some 2) (Some ones3) = Ok (Some o)).
  { destruct (Ceq_dec _ _) as [E|_] in O.
    - change (cnth ones3 (win_lh ones3)) with (RtoC 1) in E. apply RtoC_inj in E. lra.
    - apply O. intros ti [<-|[]]; cbv; intros [H _]; discriminate. }
  destruct R as [[[tfr rtfr] vec] H]. exists tfr, rtfr, vec. split; auto.
  assert (E : rent tfr 0 0 = 9%R).
  { destruct (c39_entries _ _ _ _ _ _ _ H) as (_ & _ & Q). cbv zeta in Q. cbn [rp_ts rp_n rp_w] in Q. destruct (Q 0 ltac:(change (zlen [1]) with 1; lia)) as [_ V]. rewrite V by lia. change (nth (Z.to_nat 0) [1] 0) with 1. change (win_lh ones3) with 1. change (zlen x) with 3.
    change (Z.min (Z.min (1 - 1) (3 - 1)) 1) with 0. change (arange (- 0) (0 + 1)) with [0]. rewrite csum_cons, csum_nil. change (cnth ones3 (1 + 0)) with (RtoC 1). change (cnth ones3 1) with (RtoC 1). change (cnth x (1 - 1 + 0)) with (RtoC 3). change (cnth x (1 - 1 - 0)) with (RtoC 3). change (- (0 * 0)) with 0. rewrite root_0, Cconj_R.
    cbn. field. }
  split; auto. apply (c39_moved _ _ _ _ _ _ _ H 1 1); cbn [rp_ts rp_n]; try (left; reflexivity); try (change (zlen x) with 3; lia); try (change (zlen [1]) with 1; lia).
  - intros t [<-|[]]; lia.
  - change (arange 1 (1 + 1)) with [1]. rewrite rsum_cons, rsum_nil. change (cnth x 1) with (RtoC 1). rewrite Cmod_1, E, Rabs_right by lra. change (1 + 1 - 1) with 1. lra.
Qed.
