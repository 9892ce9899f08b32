(** Proofs about the Margenau-Hill, Page and pseudo variants. *)
From Coq Require Import Reals ZArith List Lia Lra Bool Permutation.
From Coquelicot Require Import Coquelicot.
From Verif Require Import Py Scalars CSum DFT Spec M_base M_stft M_cohen P_base P_stft P_wvd P_spec.
Import ListNotations.
Local Open Scope Z_scope.

(** x[i] with Python's negative indices. *)
Definition pyat (x : list C) (i : Z) : C := if i <? 0 then cnth x (i + zlen x) else cnth x i.

Lemma get_pyat x i : - zlen x <= i < zlen x -> get x i = Ok (pyat x i).
Proof.
  intros H. unfold pyat. destruct (Z.ltb_spec i 0).
  - rewrite (get_neg (RtoC 0)) by lia. unfold cnth. do 3 f_equal; lia.
  - rewrite (get_ok (RtoC 0)) by lia. reflexivity.
Qed.

Lemma mh_col_ok x n ti col : 0 < n -> zlen col = n -> - zlen x <= ti < zlen x ->
  mh_col false x n ti col = Ok (puts col (map (fun t => ((n + t) mod n, pyat x ti * Cconj (cnth x (ti - t)))%C)
     (arange (ti + 1 - Z.min n (zlen x)) ti))).
Proof.
  intros Hn Hc Hi. unfold mh_col.
  replace (- Z.min (n - ti) (zlen x - ti) + 1) with (ti + 1 - Z.min n (zlen x)) by lia.
  rewrite get_pyat by auto. cbn [bind].
  rewrite (take_ok (RtoC 0)).
  2:{ intros i Hi'. apply in_map_iff in Hi'. destruct Hi' as [t [<- Ht]]. apply in_arange in Ht. lia. }
  cbn [bind]. rewrite !map_map. rewrite put_map_ok.
  2:{ intros t _. rewrite Hc. apply Z.mod_pos_bound. lia. }
  reflexivity.
Qed.

Lemma mh_col_raise (x : list C) n ti col : ti < - zlen x \/ zlen x <= ti -> mh_col false x n ti col = Raise IndexError.
Proof. intros H. unfold mh_col. rewrite get_raise by auto. reflexivity. Qed.

Lemma page_col_ok x n ti col : 0 < n -> zlen col = n -> - zlen x <= ti < zlen x ->
  page_col false x n ti col = Ok (puts col (map (fun t => ((n + t) mod n, pyat x ti * Cconj (cnth x (ti - t - 1)))%C)
     (arange (ti - Z.min n (zlen x)) ti))).
Proof.
  intros Hn Hc Hi. unfold page_col.
  replace (- Z.min (n - ti) (zlen x - ti)) with (ti - Z.min n (zlen x)) by lia.
  rewrite get_pyat by auto. cbn [bind].
  rewrite (take_ok (RtoC 0)).
  2:{ intros i Hi'. apply in_map_iff in Hi'. destruct Hi' as [t [<- Ht]]. apply in_arange in Ht. lia. }
  cbn [bind]. rewrite !map_map. rewrite put_map_ok.
  2:{ intros t _. rewrite Hc. apply Z.mod_pos_bound. lia. }
  reflexivity.
Qed.

Lemma page_col_raise (x : list C) n ti col : ti < - zlen x \/ zlen x <= ti -> page_col false x n ti col = Raise IndexError.
Proof. intros H. unfold page_col. rewrite get_raise by auto. reflexivity. Qed.

Lemma mapM_get_cases {A} (l : list A) idx :
  (exists v, mapM (get l) idx = Ok v) \/ mapM (get l) idx = Raise IndexError.
Proof.
  induction idx as [|i idx IH]; cbn [mapM]; [eauto|].
  destruct (get_cases l i) as [[a E]|E]; rewrite E; cbn [bind]; auto.
  destruct IH as [[v E2]|E2]; rewrite E2; cbn [bind]; eauto.
Qed.

(** Loop over integer timestamps on a fresh matrix. *)
Lemma ts_loop_fresh (body : Z -> list C -> res (list C)) l n :
  ts_loop body (TsI l) (zeros2 n (zlen l)) = mapM (fun ti => body ti (zeros n)) l.
Proof.
  unfold ts_loop, zeros2, zlen. rewrite Nat2Z.id, combine_repeat, mapM_map. reflexivity.
Qed.

Lemma ts_loop_cases (body : Z -> list C -> res (list C)) (g : Z -> list C) (ok : Z -> bool) l n :
  (forall ti, ok ti = true -> body ti (zeros n) = Ok (g ti)) ->
  (forall ti, ok ti = false -> body ti (zeros n) = Raise IndexError) ->
  ts_loop body (TsI l) (zeros2 n (zlen l)) =
  if forallb ok l then Ok (map g l) else Raise IndexError.
Proof.
  intros H1 H2. rewrite ts_loop_fresh. destruct (forallb ok l) eqn:E.
  - rewrite forallb_forall in E. apply mapM_ok. intros ti Hti. apply H1, E; auto.
  - apply mapM_raise.
    + intros ti _. destruct (ok ti) eqn:F; [left; rewrite H1 by auto; eauto|right; auto].
    + destruct (existsb (fun ti => negb (ok ti)) l) eqn:F.
      * apply existsb_exists in F. destruct F as [ti [Hti F]]. exists ti. split; auto.
        apply H2. now apply negb_true_iff.
      * exfalso. assert (forallb ok l = true); [|congruence]. apply forallb_forall. intros ti Hti.
        destruct (ok ti) eqn:G; auto. assert (existsb (fun ti => negb (ok ti)) l = true); [|congruence].
        apply existsb_exists. exists ti. now rewrite G.
Qed.

Definition in_range (N ti : Z) : bool := (- N <=? ti) && (ti <? N).
Lemma in_range_spec N ti : in_range N ti = true <-> - N <= ti < N.
Proof. unfold in_range. rewrite andb_true_iff, Z.leb_le, Z.ltb_lt. tauto. Qed.
Lemma in_range_false N ti : in_range N ti = false <-> ti < - N \/ N <= ti.
Proof. unfold in_range. rewrite andb_false_iff, Z.leb_gt, Z.ltb_ge. tauto. Qed.

Definition mh_raw (x : list C) (n ti : Z) : list C :=
  scatter n (arange (ti + 1 - Z.min n (zlen x)) ti) (fun t => pyat x ti * Cconj (cnth x (ti - t)))%C.
Definition page_raw (x : list C) (n ti : Z) : list C :=
  scatter n (arange (ti - Z.min n (zlen x)) ti) (fun t => pyat x ti * Cconj (cnth x (ti - t - 1)))%C.

Lemma mh_tfr_cases x l n : 0 < n ->
  mh_tfr false x (TsI l) n (zeros2 n (zlen l)) =
  if forallb (in_range (zlen x)) l
  then Ok (map (fun ti => map nre (fft (mh_raw x n ti))) l) else Raise IndexError.
Proof.
  intros Hn. unfold mh_tfr.
  rewrite (ts_loop_cases _ (mh_raw x n) (in_range (zlen x))).
  - destruct (forallb _ l); cbn [bind]; auto. now rewrite map_map.
  - intros ti H. apply in_range_spec in H. apply mh_col_ok; auto. apply zeros_zlen. lia.
  - intros ti H. apply in_range_false in H. apply mh_col_raise; auto.
Qed.

Lemma page_tfr_cases x l n : 0 < n ->
  page_tfr false x (TsI l) n (zeros2 n (zlen l)) =
  if forallb (in_range (zlen x)) l
  then Ok (map (fun ti => map nre (fft (page_raw x n ti))) l) else Raise IndexError.
Proof.
  intros Hn. unfold page_tfr.
  rewrite (ts_loop_cases _ (page_raw x n) (in_range (zlen x))).
  - destruct (forallb _ l); cbn [bind]; auto. now rewrite map_map.
  - intros ti H. apply in_range_spec in H. apply page_col_ok; auto. apply zeros_zlen. lia.
  - intros ti H. apply in_range_false in H. apply page_col_raise; auto.
Qed.

Lemma csum_flip a b c (F : Z -> C) :
  csum (arange a b) (fun t => F (c - t)) = csum (arange (c + 1 - b) (c + 1 - a)) F.
Proof.
  rewrite <- (csum_map (fun t => c - t) (arange a b) F). apply csum_perm.
  apply NoDup_Permutation.
  - apply NoDup_map_inj; [intros; lia|apply NoDup_arange].
  - apply NoDup_arange.
  - intros k. rewrite in_map_iff, in_arange. split.
    + intros [t [<- Ht]]. apply in_arange in Ht. lia.
    + intros Hk. exists (c - k). split; [lia|]. apply in_arange. lia.
Qed.

(** Closed forms: lags run over the samples 1..M-1 (Margenau-Hill) or 0..M-1
    (Page), M = min(n, N). *)
Lemma mh_entry x n ti f : 0 < n -> 0 <= f < n ->
  cnth (fft (mh_raw x n ti)) f =
  csum (arange 1 (Z.min n (zlen x))) (fun k => pyat x ti * Cconj (cnth x k) * root n (- (f * (ti - k))))%C.
Proof.
  intros Hn Hf. unfold mh_raw. rewrite scatter_fft; auto.
  - unfold esum.
    rewrite (csum_ext _ _ (fun t => (fun k => pyat x ti * Cconj (cnth x k) * root n (- (f * (ti - k))))%C (ti - t))).
    + rewrite (csum_flip _ _ ti (fun k => pyat x ti * Cconj (cnth x k) * root n (- (f * (ti - k))))%C).
      f_equal. f_equal; lia.
    + intros t _. cbn beta. do 4 f_equal. lia.
  - apply NoDup_mod_arange; lia.
Qed.

Lemma page_entry x n ti f : 0 < n -> 0 <= f < n ->
  cnth (fft (page_raw x n ti)) f =
  csum (arange 0 (Z.min n (zlen x))) (fun k => pyat x ti * Cconj (cnth x k) * root n (- (f * (ti - 1 - k))))%C.
Proof.
  intros Hn Hf. unfold page_raw. rewrite scatter_fft; auto.
  - unfold esum.
    rewrite (csum_ext _ _ (fun t => (fun k => pyat x ti * Cconj (cnth x k) * root n (- (f * (ti - 1 - k))))%C (ti - 1 - t))).
    + rewrite (csum_flip _ _ (ti - 1) (fun k => pyat x ti * Cconj (cnth x k) * root n (- (f * (ti - 1 - k))))%C).
      f_equal. f_equal; lia.
    + intros t _. cbn beta. replace (ti - 1 - t) with (ti - t - 1) by lia. do 4 f_equal. lia.
  - apply NoDup_mod_arange; lia.
Qed.

Lemma exp_total n ks c (g : Z -> C) : 0 < n ->
  csum (arange 0 n) (fun f => csum ks (fun k => g k * root n (- (f * (c - k))))%C) =
  (RtoC (IZR n) * csum ks (fun k => if (c - k) mod n =? 0 then g k else RtoC 0))%C.
Proof.
  intros Hn. rewrite csum_swap, <- csum_scal_l. apply csum_ext. intros k _.
  rewrite csum_scal_l, root_orth_neg by auto. destruct (_ =? 0); ring.
Qed.

(** The only sample congruent to [c]. *)
Lemma csum_residue n a M c (g : Z -> C) : 0 < n -> 0 <= a -> M <= n ->
  csum (arange a M) (fun k => if (c - k) mod n =? 0 then g k else RtoC 0) =
  if (a <=? c mod n) && (c mod n <? M) then g (c mod n) else RtoC 0.
Proof.
  intros Hn Ha HM.
  assert (Q : forall k, 0 <= k < n -> ((c - k) mod n =? 0) = (k =? c mod n)).
  { intros k Hk. destruct (Z.eqb_spec ((c - k) mod n) 0) as [E|E], (Z.eqb_spec k (c mod n)) as [E2|E2]; auto.
    - exfalso. apply E2. rewrite Zminus_mod in E. rewrite (Z.mod_small k) in E by lia.
      assert (B := Z.mod_pos_bound c n Hn). apply Z.mod_divide in E; [|lia]. destruct E as [q E].
      assert (q = 0) by nia. lia.
    - exfalso. apply E. rewrite Zminus_mod, E2, Z.mod_mod, Z.sub_diag by lia. apply Z.mod_0_l. lia. }
  destruct ((a <=? c mod n) && (c mod n <? M)) eqn:E.
  - apply andb_true_iff in E. rewrite Z.leb_le, Z.ltb_lt in E.
    rewrite (csum_single _ (c mod n)).
    + rewrite Q by lia. now rewrite Z.eqb_refl.
    + apply NoDup_arange.
    + apply in_arange. lia.
    + intros k Hk Hne. apply in_arange in Hk. rewrite Q by lia. now rewrite (proj2 (Z.eqb_neq _ _) Hne).
  - apply csum_0. intros k Hk. apply in_arange in Hk. rewrite Q by lia.
    destruct (Z.eqb_spec k (c mod n)) as [->|]; auto. exfalso.
    rewrite andb_false_iff, Z.leb_gt, Z.ltb_ge in E. lia.
Qed.

(** ** Pseudo Margenau-Hill *)
Lemma pymin3 f a b :
  pymin (F f) [I a; I b] =
  if (f <=? a) && (f <=? b) then F f else I (Z.min a b).
Proof.
  cbn [pymin nval]. destruct (Z.ltb_spec a f); cbn [nval].
  - destruct (Z.ltb_spec b a); cbn [nval].
    + rewrite (proj2 (Z.leb_gt f a)) by lia. cbn [andb]. f_equal. lia.
    + rewrite (proj2 (Z.leb_gt f a)) by lia. cbn [andb]. f_equal. lia.
  - rewrite (proj2 (Z.leb_le f a)) by lia. destruct (Z.ltb_spec b f); cbn [nval].
    + rewrite (proj2 (Z.leb_gt f b)) by lia. cbn [andb]. f_equal. lia.
    + rewrite (proj2 (Z.leb_le f b)) by lia. reflexivity.
Qed.

Definition pmh_taus (N : Z) (w : list C) (c : Z) : list Z :=
  arange (- Z.min (win_lh w) (N - c)) (Z.min (win_lh w) (c - 1) + 1).
Definition pmh_val (x w : list C) (c t : Z) : C :=
  (cnth w (win_lh w + t) * cnth x c * Cconj (cnth x (c - t - 1)))%C.
Definition pmh_okc (N : Z) (w : list C) (n c : Z) : bool :=
  (c <? N) && negb ((round_half n - 1 <=? win_lh w) &&
                    ((round_half n - 1 <=? N - c) || (round_half n - 1 <=? c - 1))).

Lemma pmh_col_cases x w n c : 0 < n -> 0 <= c ->
  pmh_col false x w n c (zeros n) =
  if pmh_okc (zlen x) w n c
  then Ok (scatter n (pmh_taus (zlen x) w c) (pmh_val x w c)) else Raise IndexError.
Proof.
  intros Hn Hc. unfold pmh_col, pmh_okc. rewrite !pymin3. set (h := round_half n) in *.
  assert (B := win_lh_bounds w).
  destruct (Z.leb_spec (h - 1) (win_lh w)) as [H1|H1]; cbn [andb].
  - destruct (Z.leb_spec (h - 1) (zlen x - c)), (Z.leb_spec (h - 1) (c - 1)); cbn [isfloat orb negb andb];
      rewrite ?andb_false_r; try reflexivity.
    rewrite andb_true_r. cbn [nval]. fold (pmh_taus (zlen x) w c).
    destruct (Z.ltb_spec c (zlen x)).
    + rewrite (take_ok (RtoC 0)).
      2:{ intros i Hi. apply in_map_iff in Hi. destruct Hi as [t [<- Ht]]. unfold pmh_taus in Ht. apply in_arange in Ht. lia. }
      cbn [bind]. rewrite (get_ok (RtoC 0)) by lia. cbn [bind]. rewrite (take_ok (RtoC 0)).
      2:{ intros i Hi. apply in_map_iff in Hi. destruct Hi as [t [<- Ht]]. unfold pmh_taus in Ht. apply in_arange in Ht. lia. }
      cbn [bind]. rewrite !map_map, bcast_map. cbn [bind]. rewrite map_map. rewrite put_map_ok; [reflexivity|].
      intros t _. rewrite zeros_zlen by lia. apply Z.mod_pos_bound. lia.
    + unfold take at 1. destruct (mapM_get_cases w (map (fun t => win_lh w + t) (pmh_taus (zlen x) w c))) as [[ws E]|E];
        rewrite E; cbn [bind]; auto. rewrite get_raise by lia. reflexivity.
  - cbn [isfloat orb negb andb nval]. rewrite andb_true_r. fold (pmh_taus (zlen x) w c).
    destruct (Z.ltb_spec c (zlen x)).
    + rewrite (take_ok (RtoC 0)).
      2:{ intros i Hi. apply in_map_iff in Hi. destruct Hi as [t [<- Ht]]. unfold pmh_taus in Ht. apply in_arange in Ht. lia. }
      cbn [bind]. rewrite (get_ok (RtoC 0)) by lia. cbn [bind]. rewrite (take_ok (RtoC 0)).
      2:{ intros i Hi. apply in_map_iff in Hi. destruct Hi as [t [<- Ht]]. unfold pmh_taus in Ht. apply in_arange in Ht. lia. }
      cbn [bind]. rewrite !map_map, bcast_map. cbn [bind]. rewrite map_map. rewrite put_map_ok; [reflexivity|].
      intros t _. rewrite zeros_zlen by lia. apply Z.mod_pos_bound. lia.
    + unfold take at 1. destruct (mapM_get_cases w (map (fun t => win_lh w + t) (pmh_taus (zlen x) w c))) as [[ws E]|E];
        rewrite E; cbn [bind]; auto. rewrite get_raise by lia. reflexivity.
Qed.
