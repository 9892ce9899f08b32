(** C47, C48 and the spectrum helper. *)
From Coq Require Import Reals ZArith List Lia Lra Bool.
From Coquelicot Require Import Coquelicot.
From Verif Require Import Py Scalars CSum DFT Spec M_base M_putils P_base P_stft.
Import ListNotations.
Local Open Scope Z_scope.

Lemma list_rnth_ext (a b : list R) : zlen a = zlen b ->
  (forall k, 0 <= k < zlen a -> rnth a k = rnth b k) -> a = b.
Proof.
  intros L H. apply (nth_ext _ _ 0%R 0%R); [unfold zlen in L; lia|]. intros k Hk.
  specialize (H (Z.of_nat k)). unfold rnth in H. rewrite !Nat2Z.id in H. apply H. unfold zlen. lia.
Qed.
Lemma rsum_nth (l : list R) : rsum l (fun v => v) = rsum (arange 0 (zlen l)) (rnth l).
Proof.
  transitivity (rsum (map (rnth l) (arange 0 (zlen l))) (fun v => v)); [|exact (rsum_map (rnth l) (arange 0 (zlen l)) (fun v => v))]. f_equal.
  apply list_nth_ext. intros k. rewrite nth_error_map. destruct (Nat.lt_ge_cases k (length l)) as [H|H].
  - rewrite nth_error_arange by (unfold zlen; lia). cbn [option_map]. unfold rnth. rewrite Z.add_0_l, Nat2Z.id. now apply nth_error_nth'.
  - rewrite (proj2 (nth_error_None l k)) by auto. rewrite (proj2 (nth_error_None (arange 0 (zlen l)) k)); auto.
    rewrite arange_length. unfold zlen. lia.
Qed.
Lemma zipw_zlen {A B D} (f : A -> B -> D) a b : zlen a = zlen b -> zlen (zipw f a b) = zlen a.
Proof. unfold zlen. intros. rewrite zipw_length; lia. Qed.
Lemma nth_zipw {A B D} (f : A -> B -> D) a b k da db dd : (k < length a)%nat -> (k < length b)%nat ->
  nth k (zipw f a b) dd = f (nth k a da) (nth k b db).
Proof. revert b k. induction a as [|x a IH]; intros [|y b] [|k]; cbn; intros; try lia; auto. apply IH; lia. Qed.
Lemma tl1_zlen {A} (l : list A) : 1 <= zlen l -> zlen (tl1 l) = zlen l - 1.
Proof. destruct l; unfold zlen; cbn [length tl1]; lia. Qed.
Lemma tl1_nth {A} (l : list A) k d : nth k (tl1 l) d = nth (S k) l d.
Proof. destruct l; [destruct k; reflexivity|reflexivity]. Qed.
Lemma prefix_zlen {A} (l : list A) k : 0 <= k <= zlen l -> zlen (prefix l k) = k.
Proof. unfold prefix, zlen. rewrite firstn_length. lia. Qed.
Lemma nth_prefix {A} (l : list A) k j d : (j < Z.to_nat k)%nat -> nth j (prefix l k) d = nth j l d.
Proof.
  unfold prefix. generalize (Z.to_nat k). intros n. revert j l. induction n as [|n IH]; intros j l H; [lia|].
  destruct l as [|a l]; [destruct j; reflexivity|]. destruct j; [reflexivity|]. cbn. apply IH. lia.
Qed.
Lemma bcast_same {A B D} (f : A -> B -> D) a b : zlen a = zlen b -> bcast f a b = Ok (zipw f a b).
Proof. unfold bcast, zlen. intros H. assert (E : length a = length b) by lia. now rewrite E, Nat.eqb_refl. Qed.

(** *** C47 *)
(** Trapezoidal rule on a grid. *)
Definition trapz (x g : Z -> R) (n : Z) : R :=
  rsum (arange 0 (n - 1)) (fun k => (x (k + 1)%Z - x k) / 2 * (g k + g (k + 1)%Z))%R.
(** Entry (i, k) of a list of rows. *)
Definition ent (mat : list (list R)) (i k : Z) : R := rnth (nth (Z.to_nat i) mat []) k.

Lemma trapz_uniform g n d : 1 <= n ->
  rsum (arange 0 (n - 1)) (fun k => d / 2 * (g k + g (k + 1)%Z))%R =
  ((rsum (arange 0 n) g - g 0%Z / 2 - g (n - 1)%Z / 2) * d)%R.
Proof.
  intros Hn. rewrite rsum_scal_l, rsum_plus. rewrite <- (rsum_arange_shift 0 (n - 1) 1 g).
  replace (0 + 1) with 1 by lia. replace (n - 1 + 1) with n by lia.
  assert (E1 : rsum (arange 0 n) g = (g 0%Z + rsum (arange 1 n) g)%R).
  { rewrite (arange_cons 0 n) by lia. rewrite rsum_cons. reflexivity. }
  assert (E2 : rsum (arange 0 n) g = (rsum (arange 0 (n - 1)) g + g (n - 1)%Z)%R).
  { replace n with (n - 1 + 1) at 1 by lia. rewrite arange_snoc, rsum_app, rsum_cons, rsum_nil by lia. ring. }
  replace (rsum (arange 1 n) g) with (rsum (arange 0 n) g - g 0%Z)%R by lra.
  replace (rsum (arange 0 (n - 1)) g) with (rsum (arange 0 n) g - g (n - 1)%Z)%R by lra. field.
Qed.

Lemma integrate_formula mat n x y : 1 <= n -> 1 <= zlen mat -> (forall r, In r mat -> zlen r = n) ->
  2 <= zlen x -> zlen y = zlen mat ->
  integrate_2d mat n (Some x) (Some y) =
  Ok (trapz (rnth y) (fun i => (rsum (arange 0 n) (ent mat i) - ent mat i 0 / 2 - ent mat i (n - 1) / 2) * (rnth x 1 - rnth x 0))%R (zlen mat)).
Proof.
  intros Hn Hm Hr Hx Hy. unfold integrate_2d. set (m := zlen mat) in *.
  rewrite (mapM_ok _ (fun r => rnth r 0)).
  2:{ intros r Hi. apply (get_ok 0%R). rewrite (Hr r Hi). lia. }
  cbn [bind]. rewrite (mapM_ok _ (fun r => rnth r (n - 1))).
  2:{ intros r Hi. apply (get_ok 0%R). rewrite (Hr r Hi). lia. }
  cbn [bind]. rewrite !(get_ok 0%R) by lia. cbn [bind].
  set (s := zipw _ mat _).
  assert (Ls : zlen s = m).
  { unfold s. rewrite zipw_zlen; auto. unfold zlen. rewrite combine_length, !map_length. lia. }
  assert (Es : forall i, 0 <= i < m -> rnth s i = ((rsum (arange 0 n) (ent mat i) - ent mat i 0 / 2 - ent mat i (n - 1) / 2) * (rnth x 1 - rnth x 0))%R).
  { intros i Hi. unfold s, rnth at 1. assert (Hi' : (Z.to_nat i < length mat)%nat) by (unfold m, zlen in Hi; lia).
    rewrite (nth_zipw _ _ _ _ [] (0%R, 0%R)) by (auto; rewrite combine_length, !map_length; lia).
    rewrite combine_nth by (rewrite !map_length; auto). cbn [fst snd].
    set (row := nth (Z.to_nat i) mat []).
    assert (Hrow : zlen row = n) by (apply Hr, nth_In; auto).
    rewrite rsum_nth, Hrow.
    rewrite (nth_indep (map (fun r => rnth r 0) mat) 0%R (rnth [] 0)) by (rewrite map_length; auto).
    rewrite (map_nth (fun r => rnth r 0)).
    rewrite (nth_indep (map (fun r => rnth r (n - 1)) mat) 0%R (rnth [] (n - 1))) by (rewrite map_length; auto).
    rewrite (map_nth (fun r => rnth r (n - 1))). reflexivity. }
  rewrite bcast_same by (rewrite prefix_zlen, tl1_zlen; lia). cbn [bind].
  rewrite bcast_same by (rewrite prefix_zlen, tl1_zlen; lia). cbn [bind].
  assert (L1 : zlen (zipw Rplus (prefix s (m - 1)) (tl1 s)) = m - 1).
  { rewrite zipw_zlen; rewrite prefix_zlen; try lia. rewrite tl1_zlen; lia. }
  assert (L2 : zlen (zipw Rminus (tl1 y) (prefix y (m - 1))) = m - 1).
  { rewrite zipw_zlen; rewrite tl1_zlen; try lia. rewrite prefix_zlen; lia. }
  rewrite bcast_same by (rewrite zlen_map; lia). cbn [bind]. f_equal.
  rewrite rsum_nth. rewrite zipw_zlen by (rewrite zlen_map; lia). rewrite L1. unfold trapz.
  apply rsum_ext. intros i Hi. apply in_arange in Hi. unfold rnth at 1.
  assert (Lp : zlen (prefix s (m - 1)) = m - 1) by (rewrite prefix_zlen; lia).
  assert (Lq : zlen (prefix y (m - 1)) = m - 1) by (rewrite prefix_zlen; lia).
  assert (Lt : zlen (tl1 s) = m - 1) by (rewrite tl1_zlen; lia).
  assert (Lu : zlen (tl1 y) = m - 1) by (rewrite tl1_zlen; lia).
  unfold zlen in L1, L2, Lp, Lq, Lt, Lu.
  rewrite (nth_zipw _ _ _ _ 0%R (0 / 2)%R) by (rewrite ?map_length; lia).
  rewrite (map_nth (fun v => v / 2)%R).
  rewrite (nth_zipw Rplus _ _ _ 0%R 0%R) by lia. rewrite (nth_zipw Rminus _ _ _ 0%R 0%R) by lia.
  rewrite !tl1_nth, !nth_prefix by lia.
  replace (S (Z.to_nat i)) with (Z.to_nat (i + 1)) by lia.
  fold (rnth s i) (rnth s (i + 1)) (rnth y i) (rnth y (i + 1)). rewrite !Es by lia.
  unfold Rdiv at 1. lra.
Qed.

Definition uniform (x : list R) := forall k, 0 <= k < zlen x - 1 -> (rnth x (k + 1) - rnth x k = rnth x 1 - rnth x 0)%R.

(** With uniformly spaced x this is the iterated trapezoidal rule. *)
Lemma c47_trapezoid : forall mat n x y, 2 <= n -> 1 <= zlen mat -> (forall r, In r mat -> zlen r = n) ->
  zlen x = n -> zlen y = zlen mat -> uniform x ->
  integrate_2d mat n (Some x) (Some y) =
  Ok (trapz (rnth y) (fun i => trapz (rnth x) (ent mat i) n) (zlen mat)).
Proof.
  intros mat n x y Hn Hm Hr Hx Hy Hu. rewrite integrate_formula by (auto; lia). f_equal. unfold trapz at 1 2.
  assert (E : forall i, trapz (rnth x) (ent mat i) n =
     ((rsum (arange 0 n) (ent mat i) - ent mat i 0 / 2 - ent mat i (n - 1) / 2) * (rnth x 1 - rnth x 0))%R).
  { intros i. rewrite <- trapz_uniform by lia. unfold trapz. apply rsum_ext. intros k Hk. apply in_arange in Hk.
    rewrite Hu by lia. reflexivity. }
  apply rsum_ext. intros i _. now rewrite !E.
Qed.

(** For non-uniform x only the first step is used, so the rule is wrong: integral
    of the constant 1 over [0,3] x [0,1] sampled at x = 0, 1, 3 comes out as 2. *)
Lemma c47_nonuniform_refuted : exists mat x y,
  integrate_2d mat 3 (Some x) (Some y) = Ok 2%R /\
  trapz (rnth y) (fun i => trapz (rnth x) (ent mat i) 3) (zlen mat) = 3%R.
Proof.
  set (mat := [[1; 1; 1]; [1; 1; 1]]%R). set (x := [0; 1; 3]%R). set (y := [0; 1]%R).
  exists mat, x, y.
  rewrite integrate_formula; [| lia | unfold zlen; cbn; lia | intros r [<-|[<-|[]]]; reflexivity | unfold zlen; cbn; lia | reflexivity].
  change (zlen mat) with 2. unfold trapz. change (arange 0 (2 - 1)) with [0]. change (arange 0 (3 - 1)) with [0; 1].
  change (arange 0 3) with [0; 1; 2]. rewrite !rsum_cons, !rsum_nil. unfold ent, rnth, mat, x, y.
  change (Z.to_nat (0 + 1)) with 1%nat. change (Z.to_nat (1 + 1)) with 2%nat. change (Z.to_nat (3 - 1)) with 2%nat.
  change (Z.to_nat 0) with 0%nat. change (Z.to_nat 1) with 1%nat. change (Z.to_nat 2) with 2%nat. cbn [nth].
  split; [f_equal|]; lra.
Qed.

(** One column: IndexError with the default axis. *)
Lemma c47_one_column : forall mat y, (forall r, In r mat -> zlen r = 1) ->
  integrate_2d mat 1 None y = Raise IndexError.
Proof.
  intros mat y Hr. unfold integrate_2d.
  rewrite (mapM_ok _ (fun r => rnth r 0)) by (intros r Hi; apply (get_ok 0%R); rewrite (Hr r Hi); lia). cbn [bind].
  rewrite (mapM_ok _ (fun r => rnth r 0)) by (intros r Hi; apply (get_ok 0%R); rewrite (Hr r Hi); lia). reflexivity.
Qed.

(** The default axes are 0, 1, 2, ... *)
Lemma c47_default_axes : forall mat n, 2 <= n -> 1 <= zlen mat -> (forall r, In r mat -> zlen r = n) ->
  integrate_2d mat n None None = Ok (trapz IZR (fun i => trapz IZR (ent mat i) n) (zlen mat)).
Proof.
  intros mat n Hn Hm Hr.
  change (integrate_2d mat n None None) with (integrate_2d mat n (Some (map IZR (arange 0 n))) (Some (map IZR (arange 0 (zlen mat))))).
  assert (Hg : forall m k, 0 <= k < m -> rnth (map IZR (arange 0 m)) k = IZR k).
  { intros m k Hk. unfold rnth. rewrite nth_map_arange by lia. now rewrite Z.add_0_l. }
  rewrite c47_trapezoid; auto.
  - f_equal. unfold trapz. apply rsum_ext. intros i Hi. apply in_arange in Hi. rewrite !Hg by lia. f_equal. 
    assert (E : forall g, rsum (arange 0 (n - 1)) (fun k => (rnth (map IZR (arange 0 n)) (k + 1) - rnth (map IZR (arange 0 n)) k) / 2 * (g k + g (k + 1)%Z))%R
       = rsum (arange 0 (n - 1)) (fun k => (IZR (k + 1) - IZR k) / 2 * (g k + g (k + 1)%Z))%R).
    { intros g. apply rsum_ext. intros k Hk. apply in_arange in Hk. rewrite !Hg by lia. reflexivity. }
    now rewrite !E.
  - rewrite zlen_map, arange_zlen. lia.
  - rewrite zlen_map, arange_zlen. lia.
  - intros k Hk. rewrite zlen_map, arange_zlen in Hk. rewrite !Hg by lia. rewrite plus_IZR. ring.
Qed.

(** Linearity in the matrix. *)
Lemma trapz_lin a b x g h n : trapz x (fun k => a * g k + b * h k)%R n = (a * trapz x g n + b * trapz x h n)%R.
Proof. unfold trapz. rewrite <- !rsum_scal_l, <- rsum_plus. apply rsum_ext. intros. ring. Qed.
Lemma trapz_ext x g h n : (forall k, 0 <= k < n -> g k = h k) -> trapz x g n = trapz x h n.
Proof. intros H. unfold trapz. apply rsum_ext. intros k Hk. apply in_arange in Hk. rewrite !H by lia. reflexivity. Qed.

Lemma c47_linear : forall a b A B D n x y va vb, 1 <= n -> 1 <= zlen D -> zlen A = zlen D -> zlen B = zlen D ->
  (forall r, In r (A ++ B ++ D) -> zlen r = n) -> 2 <= zlen x -> zlen y = zlen D ->
  (forall i k, 0 <= i < zlen D -> 0 <= k < n -> (ent D i k = a * ent A i k + b * ent B i k)%R) ->
  integrate_2d A n (Some x) (Some y) = Ok va -> integrate_2d B n (Some x) (Some y) = Ok vb ->
  integrate_2d D n (Some x) (Some y) = Ok (a * va + b * vb)%R.
Proof.
  intros a b A B D n x y va vb Hn Hm HA HB Hr Hx Hy He Ha Hb.
  rewrite integrate_formula in Ha, Hb by (auto; try lia; intros r Hi; apply Hr; rewrite !in_app_iff; auto).
  rewrite integrate_formula by (auto; try lia; intros r Hi; apply Hr; rewrite !in_app_iff; auto).
  rewrite HA in Ha. rewrite HB in Hb. f_equal.
  assert (Ea := f_equal (fun r => match r with Ok v => v | _ => 0%R end) Ha). assert (Eb := f_equal (fun r => match r with Ok v => v | _ => 0%R end) Hb).
  cbn beta iota in Ea, Eb. rewrite <- Ea, <- Eb, <- trapz_lin. apply trapz_ext. intros i Hi. rewrite !He by lia.
  rewrite (rsum_ext _ (ent D i) (fun k => a * ent A i k + b * ent B i k)%R).
  - rewrite rsum_plus, !rsum_scal_l. field.
  - intros k Hk. apply in_arange in Hk. apply He; lia.
Qed.

(** Non-negativity. *)
Lemma c47_nonneg : forall mat n x y v, 1 <= n -> 1 <= zlen mat -> (forall r, In r mat -> zlen r = n) ->
  2 <= zlen x -> zlen y = zlen mat ->
  (forall i k, 0 <= i < zlen mat -> 0 <= k < n -> (0 <= ent mat i k)%R) ->
  (rnth x 0 <= rnth x 1)%R -> (forall i, 0 <= i < zlen mat - 1 -> (rnth y i <= rnth y (i + 1))%R) ->
  integrate_2d mat n (Some x) (Some y) = Ok v -> (0 <= v)%R.
Proof.
  intros mat n x y v Hn Hm Hr Hx Hy Hp Hx01 Hyy H. rewrite integrate_formula in H by auto.
  assert (E := f_equal (fun r => match r with Ok v => v | _ => 0%R end) H). cbn beta iota in E. rewrite <- E.
  assert (G : forall i, 0 <= i < zlen mat -> (0 <= (rsum (arange 0 n) (ent mat i) - ent mat i 0 / 2 - ent mat i (n - 1) / 2) * (rnth x 1 - rnth x 0))%R).
  { intros i Hi. rewrite <- trapz_uniform by lia. apply rsum_nonneg. intros k Hk. apply in_arange in Hk.
    assert (P1 := Hp i k Hi ltac:(lia)). assert (P2 := Hp i (k + 1) Hi ltac:(lia)).
    apply Rmult_le_pos; lra. }
  unfold trapz. apply rsum_nonneg. intros i Hi. apply in_arange in Hi.
  assert (P1 := G i ltac:(lia)). assert (P2 := G (i + 1) ltac:(lia)). assert (P3 := Hyy i ltac:(lia)).
  apply Rmult_le_pos; lra.
Qed.

(** [integrate_2d] of a 5 by 3 matrix 1..15 (the self-test at the end of the
    file): 64. *)
Example c47_example : integrate_2d [[1;2;3];[4;5;6];[7;8;9];[10;11;12];[13;14;15]]%R 3 None None = Ok 64%R.
Proof.
  rewrite c47_default_axes; [|lia|unfold zlen; cbn; lia|intros r Hr; cbn in Hr; repeat (destruct Hr as [<-|Hr]; [reflexivity|]); destruct Hr].
  f_equal. change (zlen _) with 5. unfold trapz. change (arange 0 (5 - 1)) with [0;1;2;3]. change (arange 0 (3 - 1)) with [0; 1].
  rewrite !rsum_cons, !rsum_nil. unfold ent, rnth.
  repeat match goal with |- context [Z.to_nat ?z] => let v := eval vm_compute in (Z.to_nat z) in change (Z.to_nat z) with v end.
  cbn [nth].
  repeat match goal with |- context [IZR (?a + ?b)%Z] => let v := eval vm_compute in (a + b)%Z in change (a + b)%Z with v end.
  lra.
Qed.

(** *** C48 *)
Lemma nth_skipn2 {A} (l : list A) k d : nth k (skipn 2 l) d = nth (S (S k)) l d.
Proof. destruct l as [|a [|b l]]; cbn; auto; destruct k; auto; destruct k; auto. Qed.

Definition dw_ramp (w : list C) : C := ((cnth w 0 - cnth w (zlen w - 1)) / RtoC (IZR (zlen w - 1)))%C.

Lemma nth_firstn {A} (l : list A) n j d : (j < n)%nat -> nth j (firstn n l) d = nth j l d.
Proof.
  revert j l. induction n as [|n IH]; intros j l H; [lia|].
  destruct l as [|a l]; [destruct j; reflexivity|]. destruct j; [reflexivity|]. cbn. apply IH. lia.
Qed.

(** Every entry, for every window of at least two samples. *)
Lemma c48_formula : forall w, 2 <= zlen w ->
  exists dw, derive_window w = Ok (Some dw) /\ zlen dw = zlen w /\
  (forall k, 1 <= k < zlen w - 1 -> cnth dw k = ((cnth w (k + 1) - cnth w (k - 1)) / RtoC 2)%C) /\
  cnth dw 0 = ((cnth w 0 + cnth w 1 + dw_ramp w) / RtoC 2)%C /\
  cnth dw (zlen w - 1) = ((dw_ramp w - cnth w (zlen w - 2) - cnth w (zlen w - 1)) / RtoC 2)%C.
Proof.
  intros w Hm. unfold derive_window. set (m := zlen w) in *.
  rewrite (get_ok (RtoC 0)) by lia. cbn [bind].
  rewrite (get_neg (RtoC 0)) by (fold m; lia). cbn [bind].
  fold m. replace (-1 + m) with (m - 1) by lia. fold (cnth w 0) (cnth w (m - 1)).
  destruct (Z.eqb_spec m 1); [lia|].
  fold (dw_ramp w). set (ramp := dw_ramp w). set (step := ((cnth w 0 + cnth w (m - 1)) / RtoC 2)%C).
  set (base := zipw _ w _). set (B := [RtoC 0] ++ base ++ [RtoC 0]).
  assert (Lg : zlen (map (fun k => RtoC (IZR k - IZR (m - 1) / 2)%R) (arange 0 m)) = m) by (rewrite zlen_map, arange_zlen; lia).
  assert (Lb : zlen base = m) by (unfold base; rewrite zipw_zlen; auto).
  assert (Eb : forall k, 0 <= k < m -> cnth base k = (cnth w k - step - ramp * RtoC (IZR k - IZR (m - 1) / 2)%R)%C).
  { intros k Hk. unfold base, cnth at 1. rewrite (nth_zipw _ _ _ _ (RtoC 0) (RtoC 0)).
    - rewrite nth_map_arange by lia. rewrite Z.add_0_l. reflexivity.
    - unfold m, zlen in Hk. lia.
    - unfold zlen in Lg. lia. }
  assert (EB : forall k, nth k B (RtoC 0) = if (k =? 0)%nat then RtoC 0 else if (k <=? Z.to_nat m)%nat then cnth base (Z.of_nat k - 1) else RtoC 0).
  { intros k. unfold B. destruct k as [|k]; [reflexivity|]. cbn [app nth Nat.eqb]. unfold zlen in Lb.
    destruct (Nat.leb_spec (S k) (Z.to_nat m)).
    - rewrite app_nth1 by lia. unfold cnth. f_equal. lia.
    - rewrite app_nth2 by lia. destruct (k - length base)%nat as [|j] eqn:Ej; [reflexivity|]. destruct j; reflexivity. }
  assert (LB : length B = S (S (Z.to_nat m))).
  { unfold B. rewrite !app_length. cbn [length]. unfold zlen in Lb. lia. }
  set (dw := zipw _ _ _).
  assert (Ldw : zlen dw = m).
  { unfold dw. rewrite zipw_zlen.
    - unfold zlen. rewrite firstn_length, skipn_length. lia.
    - unfold zlen, prefix. rewrite !firstn_length, skipn_length. lia. }
  assert (Edw : forall k, 0 <= k < m -> cnth dw k = ((nth (Z.to_nat k + 2) B (RtoC 0) - nth (Z.to_nat k) B (RtoC 0)) / RtoC 2 + ramp)%C).
  { intros k Hk. unfold dw, cnth at 1. rewrite (nth_zipw _ _ _ _ (RtoC 0) (RtoC 0)).
    - rewrite nth_prefix by lia. rewrite nth_firstn by lia. rewrite nth_skipn2. do 4 f_equal. lia.
    - rewrite firstn_length, skipn_length. lia.
    - unfold prefix. rewrite firstn_length. lia. }
  rewrite (get_ok (RtoC 0)) by lia. cbn [bind]. rewrite set_ok by lia. cbn [bind].
  rewrite (get_neg (RtoC 0)) by (rewrite upd_zlen; lia). cbn [bind]. rewrite !upd_zlen, Ldw.
  unfold set at 1. rewrite pyidx_neg by (rewrite upd_zlen; lia). cbn [bind]. rewrite upd_zlen, Ldw.
  replace (-1 + m) with (m - 1) by lia. eexists. split; [reflexivity|]. split; [rewrite !upd_zlen; auto|].
  change (Z.to_nat 0) with 0%nat.
  assert (N2 : RtoC 2 <> RtoC 0) by (intros Q; apply RtoC_inj in Q; lra).
  assert (E2 : RtoC 2 = (RtoC 1 + RtoC 1)%C) by (rewrite <- RtoC_plus; f_equal; lra).
  assert (Nm : IZR (m - 1) <> 0%R) by (apply not_0_IZR; lia).
  assert (Nm' : RtoC (IZR (m - 1)) <> RtoC 0) by (intros Q; apply RtoC_inj in Q; auto).
  assert (L2 : (length dw = Z.to_nat m)%nat) by (unfold zlen in Ldw; lia).
  assert (Hr : (ramp * RtoC (IZR (m - 1)) = cnth w 0 - cnth w (m - 1))%C).
  { unfold ramp, dw_ramp. fold m. field. auto. }
  split; [|split].
  - intros k Hk. unfold cnth at 1. rewrite nth_upd_neq, nth_upd_neq by lia. fold (cnth dw k). rewrite Edw, !EB by lia.
    destruct (Nat.eqb_spec (Z.to_nat k + 2) 0); [lia|]. destruct (Nat.eqb_spec (Z.to_nat k) 0); [lia|].
    destruct (Nat.leb_spec (Z.to_nat k + 2) (Z.to_nat m)); [|lia]. destruct (Nat.leb_spec (Z.to_nat k) (Z.to_nat m)); [|lia].
    replace (Z.of_nat (Z.to_nat k + 2) - 1) with (k + 1) by lia. replace (Z.of_nat (Z.to_nat k) - 1) with (k - 1) by lia.
    rewrite !Eb by lia. rewrite (plus_IZR k 1), (minus_IZR k 1). rewrite !RtoC_minus, !RtoC_plus.
    unfold Rdiv. rewrite RtoC_mult, RtoC_inv by lra. rewrite E2 in *. field. auto.
  - unfold cnth at 1. rewrite nth_upd_neq by lia. change (Z.to_nat 0) with 0%nat. rewrite nth_upd_eq by lia.
    change (nth 0 dw (RtoC 0)) with (cnth dw 0). rewrite Edw, !EB by lia. change (Z.to_nat 0) with 0%nat. cbn [Nat.eqb Nat.add].
    destruct (Nat.leb_spec 2 (Z.to_nat m)); [|lia]. change (Z.of_nat 2 - 1) with 1. rewrite Eb by lia.
    transitivity ((cnth w 1 + step + ramp + (ramp * RtoC (IZR (m - 1))) / RtoC 2) / RtoC 2)%C.
    + rewrite RtoC_minus. unfold Rdiv. rewrite RtoC_mult, RtoC_inv by lra. rewrite E2 in *. field. auto.
    + rewrite Hr. unfold step. rewrite E2 in *. field. auto.
  - unfold cnth at 1. rewrite nth_upd_eq by (rewrite upd_length; lia). rewrite nth_upd_neq by lia.
    fold (cnth dw (m - 1)). rewrite Edw, !EB by lia.
    destruct (Nat.eqb_spec (Z.to_nat (m - 1) + 2) 0); [lia|]. destruct (Nat.eqb_spec (Z.to_nat (m - 1)) 0); [lia|].
    destruct (Nat.leb_spec (Z.to_nat (m - 1) + 2) (Z.to_nat m)); [lia|]. destruct (Nat.leb_spec (Z.to_nat (m - 1)) (Z.to_nat m)); [|lia].
    replace (Z.of_nat (Z.to_nat (m - 1)) - 1) with (m - 2) by lia. rewrite Eb by lia.
    replace (m - 2) with (m - 1 - 1) by lia. rewrite (minus_IZR (m - 1) 1). replace (m - 1 - 1) with (m - 2) by lia.
    transitivity ((- cnth w (m - 2) - step + ramp + (ramp * RtoC (IZR (m - 1))) / RtoC 2) / RtoC 2)%C.
    + rewrite !RtoC_minus. unfold Rdiv. rewrite RtoC_mult, RtoC_inv by lra. rewrite E2 in *. field. auto.
    + rewrite Hr. unfold step. rewrite E2 in *. field. auto.
Qed.

(** Short windows: one sample gives NaN, none IndexError. *)
Lemma c48_short : forall w, (zlen w = 1 -> derive_window w = Ok None) /\ (zlen w = 0 -> derive_window w = Raise IndexError).
Proof.
  intros w. split; intros H.
  - unfold derive_window. rewrite (get_ok (RtoC 0)) by lia. cbn [bind]. rewrite (get_neg (RtoC 0)) by lia. cbn [bind].
    rewrite H. reflexivity.
  - unfold derive_window. rewrite get_raise by lia. reflexivity.
Qed.

(** The entries add up to the ramp (w[0] - w[-1]) / (len - 1), so to 0 exactly
    when the end points agree. *)
Lemma c48_sum : forall w dw, 2 <= zlen w -> derive_window w = Ok (Some dw) ->
  csum dw (fun z => z) = ((cnth w 0 - cnth w (zlen w - 1)) / RtoC (IZR (zlen w - 1)))%C.
Proof.
  intros w dw Hm H. destruct (c48_formula w Hm) as (dw' & E & L & Hi & H0 & Hl).
  assert (dw' = dw) by congruence. subst dw'. clear E H.
  set (m := zlen w) in *.
  transitivity (csum (map (cnth dw) (arange 0 (zlen dw))) (fun z => z)).
  { f_equal. apply list_as_map. }
  rewrite csum_map, L. rewrite (arange_cons 0 m), csum_cons by lia. change (0 + 1) with 1.
  replace m with (m - 1 + 1) at 1 by lia. rewrite arange_snoc, csum_app, csum_cons, csum_nil by lia.
  assert (S : csum (arange 1 (m - 1)) (cnth dw) = ((cnth w (m - 1) + cnth w (m - 2) - cnth w 1 - cnth w 0) / RtoC 2)%C).
  { rewrite (csum_ext _ _ (fun k => (cnth w (k + 1) - cnth w (k - 1)) / RtoC 2)%C) by (intros k Hk; apply in_arange in Hk; apply Hi; lia).
    assert (T : forall n : nat, Z.of_nat n <= m - 2 ->
       csum (arange 1 (1 + Z.of_nat n)) (fun k => (cnth w (k + 1) - cnth w (k - 1)) / RtoC 2)%C =
       ((cnth w (Z.of_nat n + 1) + cnth w (Z.of_nat n) - cnth w 1 - cnth w 0) / RtoC 2)%C).
    { induction n as [|n IH]; intros Hn.
      - change (arange 1 (1 + Z.of_nat 0)) with (@nil Z). rewrite csum_nil. change (Z.of_nat 0) with 0. change (0 + 1) with 1. 
        unfold Cdiv. ring.
      - replace (1 + Z.of_nat (S n)) with (1 + Z.of_nat n + 1) by lia. rewrite arange_snoc, csum_app, csum_cons, csum_nil, IH by lia.
        replace (1 + Z.of_nat n - 1) with (Z.of_nat n) by lia. replace (1 + Z.of_nat n + 1) with (Z.of_nat (S n) + 1) by lia.
        replace (Z.of_nat (S n)) with (Z.of_nat n + 1) by lia. unfold Cdiv. ring. }
    specialize (T (Z.to_nat (m - 2)) ltac:(lia)). rewrite Z2Nat.id in T by lia.
    replace (1 + (m - 2)) with (m - 1) in T by lia. replace (m - 2 + 1) with (m - 1) in T by lia. exact T. }
  change (csum (arange 1 (m - 1)) (fun a => cnth dw a)) with (csum (arange 1 (m - 1)) (cnth dw)).
  rewrite S, H0, Hl. fold m. unfold dw_ramp. fold m.
  assert (RtoC (IZR (m - 1)) <> RtoC 0) by (intros Q; apply RtoC_inj in Q; revert Q; apply not_0_IZR; lia).
  assert (N2 : RtoC 2 <> RtoC 0) by (intros Q; apply RtoC_inj in Q; lra).
  assert (E2 : RtoC 2 = (RtoC 1 + RtoC 1)%C) by (rewrite <- RtoC_plus; f_equal; lra).
  rewrite E2 in *. field. auto.
Qed.

(** Symmetric windows: antisymmetric result, 0 at the centre, sum 0. *)
Lemma c48_symmetric : forall w dw, 2 <= zlen w -> (forall k, 0 <= k < zlen w -> cnth w k = cnth w (zlen w - 1 - k)) ->
  derive_window w = Ok (Some dw) ->
  (forall k, 0 <= k < zlen w -> cnth dw (zlen w - 1 - k) = (- cnth dw k)%C) /\
  (Z.odd (zlen w) = true -> cnth dw ((zlen w - 1) / 2) = RtoC 0) /\
  csum dw (fun z => z) = RtoC 0.
Proof.
  intros w dw Hm Hs H. assert (HS := c48_sum w dw Hm H).
  destruct (c48_formula w Hm) as (dw' & E & L & Hi & H0 & Hl).
  assert (dw' = dw) by congruence. subst dw'. clear E H.
  set (m := zlen w) in *.
  assert (N2 : RtoC 2 <> RtoC 0) by (intros Q; apply RtoC_inj in Q; lra).
  assert (R0 : dw_ramp w = RtoC 0).
  { unfold dw_ramp. fold m. rewrite (Hs 0) by lia. rewrite Z.sub_0_r. unfold Cdiv. ring. }
  assert (A : forall k, 0 <= k < m -> cnth dw (m - 1 - k) = (- cnth dw k)%C).
  { intros k Hk. destruct (Z.eq_dec k 0) as [->|N0]; [|destruct (Z.eq_dec k (m - 1)) as [->|N1]].
    - rewrite Z.sub_0_r, H0, Hl, R0. rewrite (Hs 0), (Hs 1) by lia. rewrite Z.sub_0_r. replace (m - 1 - 1) with (m - 2) by lia. field. auto.
    - rewrite Z.sub_diag, H0, Hl, R0. rewrite (Hs 0), (Hs 1) by lia. rewrite Z.sub_0_r. replace (m - 1 - 1) with (m - 2) by lia. field. auto.
    - rewrite !Hi by lia. rewrite (Hs (m - 1 - k + 1)), (Hs (m - 1 - k - 1)) by lia.
      replace (m - 1 - (m - 1 - k + 1)) with (k - 1) by lia. replace (m - 1 - (m - 1 - k - 1)) with (k + 1) by lia. field. auto. }
  split; [exact A|]. split.
  - intros O. assert (Ho : m = 2 * ((m - 1) / 2) + 1).
    { apply Z.odd_spec in O. destruct O as [q O]. rewrite O. replace (2 * q + 1 - 1) with (q * 2) by lia. rewrite Z.div_mul by lia. lia. }
    specialize (A ((m - 1) / 2) ltac:(lia)). replace (m - 1 - (m - 1) / 2) with ((m - 1) / 2) in A by lia.
    apply injective_projections; [apply (f_equal fst) in A|apply (f_equal snd) in A]; cbn in A |- *; lra.
  - rewrite HS, (Hs 0) by lia. rewrite Z.sub_0_r. unfold Cdiv. ring.
Qed.

(** Derivative of [1; 2; 1]: [3/2; 0; -3/2]. *)
Example c48_example : derive_window [RtoC 1; RtoC 2; RtoC 1] = Ok (Some [RtoC (3 / 2); RtoC 0; RtoC (- (3 / 2))]).
Proof.
  set (w := [RtoC 1; RtoC 2; RtoC 1]). destruct (c48_formula w) as (dw & E & L & Hi & H0 & Hl).
  { unfold w, zlen. cbn. lia. }
  change (zlen w) with 3 in *. rewrite E. do 2 f_equal.
  assert (R0 : dw_ramp w = RtoC 0). { unfold dw_ramp, cnth, w. cbn [Z.to_nat nth zlen]. unfold Cdiv. change (Z.to_nat (zlen _ - 1)) with 2%nat. cbn [nth]. ring. }
  specialize (Hi 1 ltac:(lia)). rewrite R0 in *. change (3 - 1) with 2 in *. change (3 - 2) with 1 in *. change (1 + 1) with 2 in *. change (1 - 1) with 0 in *.
  unfold cnth in Hi, H0, Hl. change (Z.to_nat 2) with 2%nat in *. change (Z.to_nat 1) with 1%nat in *. change (Z.to_nat 0) with 0%nat in *.
  unfold w in Hi, H0, Hl. cbn [nth] in Hi, H0, Hl. 
  destruct dw as [|a [|b [|c [|d dw]]]]; try (unfold zlen in L; cbn [length] in L; lia). cbn [nth] in Hi, H0, Hl.
  rewrite Hi, H0, Hl. repeat f_equal; apply injective_projections; cbn; field.
Qed.

(** get_spectrum: the total is len(x) times the energy (Parseval). *)
Lemma c75_spectrum_total : forall x, zlen (get_spectrum x) = zlen x /\
  rsum (get_spectrum x) (fun v => v) = (IZR (zlen x) * energy x)%R /\
  (forall k, 0 <= k < zlen x -> rnth (get_spectrum x) k = (Cmod (cnth (fft x) ((k - zlen x / 2) mod zlen x)) ^ 2)%R).
Proof.
  intros x. unfold get_spectrum, fftshift. set (s := map _ (fft x)).
  assert (Ls : zlen s = zlen x) by (unfold s; rewrite zlen_map; apply fft_zlen).
  set (k := Z.to_nat ((zlen s + 1) / 2)). assert (HN := zlen_nonneg x).
  assert (Hk : Z.of_nat k = zlen x - zlen x / 2 /\ (k <= length s)%nat).
  { unfold k. rewrite Ls. unfold zlen in Ls |- *. Z.to_euclidean_division_equations. lia. }
  split; [|split].
  - unfold zlen. rewrite app_length, skipn_length, firstn_length. unfold zlen in *. lia.
  - rewrite rsum_app, Rplus_comm, <- rsum_app, firstn_skipn. unfold s. rewrite rsum_map.
    destruct (Z.eq_dec (zlen x) 0) as [E|E].
    + unfold zlen in E. destruct x; [|cbn in E; lia]. cbn. ring.
    + transitivity (rsum (map (cnth (fft x)) (arange 0 (zlen (fft x)))) (fun z => Cmod z ^ 2)%R).
      { f_equal. apply list_as_map. }
      rewrite rsum_map, fft_zlen, energy_nth.
      rewrite (rsum_ext _ _ (fun f => Cmod (esum (zlen x) (arange 0 (zlen x)) (cnth x) f) ^ 2)%R).
      * apply esum_energy; [lia|]. apply NoDup_mod_arange; lia.
      * intros f Hf. apply in_arange in Hf. rewrite fft_nth by lia. reflexivity.
  - intros j Hj. assert (E : forall i, 0 <= i < zlen x -> rnth s i = (Cmod (cnth (fft x) i) ^ 2)%R).
    { intros i Hi. unfold rnth, s. rewrite (nth_indep _ 0%R ((fun z => Cmod z ^ 2)%R (RtoC 0))).
      - rewrite (map_nth (fun z => Cmod z ^ 2)%R). reflexivity.
      - rewrite map_length, fft_length. unfold zlen in Hi. lia. }
    unfold rnth. unfold zlen in Ls.
    destruct (Z.lt_ge_cases j (zlen x / 2)) as [Q|Q].
    + rewrite app_nth1 by (rewrite skipn_length; unfold zlen in *; lia).
      rewrite <- E by (apply Z.mod_pos_bound; lia). unfold rnth.
      replace ((j - zlen x / 2) mod zlen x) with (j + Z.of_nat k).
      * replace (Z.to_nat (j + Z.of_nat k)) with (k + Z.to_nat j)%nat by lia.
        rewrite <- (firstn_skipn k s) at 2. rewrite app_nth2; rewrite firstn_length; [|lia]. f_equal. lia.
      * replace (j - zlen x / 2) with (j + Z.of_nat k + (-1) * zlen x) by lia. rewrite Z.mod_add by lia. symmetry. apply Z.mod_small.
        assert (zlen x / 2 <= zlen x) by (Z.to_euclidean_division_equations; lia). lia.
    + rewrite app_nth2 by (rewrite skipn_length; unfold zlen in *; lia). rewrite skipn_length.
      assert (H2 : 0 <= zlen x / 2) by (Z.to_euclidean_division_equations; lia).
      rewrite Z.mod_small by lia. rewrite <- E by lia. unfold rnth. rewrite nth_firstn by (unfold zlen in *; lia). f_equal.
      unfold zlen in *. lia.
Qed.
