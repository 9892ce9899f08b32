(** Proofs about the pseudo Wigner-Ville model. *)
From Coq Require Import Reals ZArith List Lia Lra Bool Permutation.
From Coquelicot Require Import Coquelicot.
From Verif Require Import Py Scalars CSum DFT Spec M_base M_stft M_cohen P_base P_stft P_wvd.
Import ListNotations.
Local Open Scope Z_scope.

Definition pwvd_taus (N : Z) (w : list C) (n c : Z) : list Z :=
  let m := Z.min (Z.min c (N - c - 1)) (Z.min (round_half n) (win_lh w)) in arange (- m) (m + 1).
Definition pwvd_val (x w : list C) (c t : Z) : C :=
  (cnth w (win_lh w + t) * cnth x (c + t) * Cconj (cnth x (c - t)))%C.
Definition pwvd_bad (N : Z) (w : list C) (n c : Z) : bool :=
  (c <=? N - round_half n) && (round_half n + 1 <=? c) && (round_half n <=? win_lh w).

Lemma pwvd_col_ok x w n c col : 0 < n -> zlen col = n -> 0 <= c ->
  pwvd_col false x w n c col =
  if pwvd_bad (zlen x) w n c then Raise IndexError
  else Ok (puts col (map (fun t => ((n + t) mod n, pwvd_val x w c t)) (pwvd_taus (zlen x) w n c))).
Proof.
  intros Hn Hc Hi. unfold pwvd_col. fold (pwvd_taus (zlen x) w n c).
  assert (B := win_lh_bounds w).
  rewrite (take_ok (RtoC 0)).
  2:{ intros i Hi'. apply in_map_iff in Hi'. destruct Hi' as [t [<- Ht]].
      unfold pwvd_taus in Ht. apply in_arange in Ht. lia. }
  cbn [bind]. rewrite (take_ok (RtoC 0)).
  2:{ intros i Hi'. apply in_map_iff in Hi'. destruct Hi' as [t [<- Ht]].
      unfold pwvd_taus in Ht. apply in_arange in Ht. lia. }
  cbn [bind]. rewrite !map_map, bcast_map. cbn [bind]. rewrite (take_ok (RtoC 0)).
  2:{ intros i Hi'. apply in_map_iff in Hi'. destruct Hi' as [t [<- Ht]].
      unfold pwvd_taus in Ht. apply in_arange in Ht. lia. }
  cbn [bind]. rewrite !map_map, bcast_map. cbn [bind]. rewrite map_map.
  rewrite put_map_ok.
  2:{ intros t _. rewrite Hc. apply Z.mod_pos_bound. lia. }
  cbn [bind]. fold (pwvd_bad (zlen x) w n c). destruct (pwvd_bad (zlen x) w n c); auto.
Qed.

Definition pwvd_raw (x w : list C) (n c : Z) : list C :=
  scatter n (pwvd_taus (zlen x) w n c) (pwvd_val x w c).

Lemma pwvd_tfr_cases x w n T : 0 < n ->
  ((exists c, 0 <= c < T /\ pwvd_bad (zlen x) w n c = true) /\
   pwvd_tfr false x w n (zeros2 n T) = Raise IndexError) \/
  ((forall c, 0 <= c < T -> pwvd_bad (zlen x) w n c = false) /\
   pwvd_tfr false x w n (zeros2 n T) = Ok (map (fun c => fft (pwvd_raw x w n c)) (arange 0 T))).
Proof.
  intros Hn. unfold pwvd_tfr. rewrite zeros2_enum, mapM_map.
  destruct (existsb (pwvd_bad (zlen x) w n) (arange 0 T)) eqn:E.
  - left. apply existsb_exists in E. destruct E as [c [Hc Hb]]. split.
    + exists c. apply in_arange in Hc. auto.
    + rewrite (mapM_raise _ _ IndexError); [reflexivity| |].
      * intros i Hi. apply in_arange in Hi. rewrite pwvd_col_ok; try lia; [|apply zeros_zlen; lia].
        destruct (pwvd_bad (zlen x) w n i); eauto.
      * exists c. split; auto. apply in_arange in Hc.
        rewrite pwvd_col_ok; try lia; [|apply zeros_zlen; lia]. now rewrite Hb.
  - right.
    assert (B : forall c, 0 <= c < T -> pwvd_bad (zlen x) w n c = false).
    { intros c Hc. destruct (pwvd_bad (zlen x) w n c) eqn:F; auto.
      assert (existsb (pwvd_bad (zlen x) w n) (arange 0 T) = true); [|congruence].
      apply existsb_exists. exists c. rewrite in_arange. auto. }
    split; auto.
    rewrite (mapM_ok _ (fun c => pwvd_raw x w n c)).
    + cbn [bind]. now rewrite map_map.
    + intros c Hc. apply in_arange in Hc. rewrite pwvd_col_ok; try lia; [|apply zeros_zlen; lia].
      now rewrite B by auto.
Qed.

Lemma pwvd_taus_small N w n c : 0 < n -> win_lh w < round_half n ->
  pwvd_taus N w n c = (let m := Z.min (Z.min c (N - c - 1)) (win_lh w) in arange (- m) (m + 1)).
Proof. intros. unfold pwvd_taus. now rewrite (Z.min_r (round_half n)) by lia. Qed.

Lemma pwvd_taus_nodup N w n c : 0 < n -> win_lh w < round_half n ->
  NoDup (map (fun t => t mod n) (pwvd_taus N w n c)).
Proof.
  intros Hn H. rewrite pwvd_taus_small by auto. apply NoDup_mod_arange; auto.
  generalize (round_half_bounds n). lia.
Qed.

Lemma pwvd_entry x w n c f : 0 < n -> 0 <= f < n ->
  cnth (fft (pwvd_raw x w n c)) f =
  esum n (lastdup n (pwvd_taus (zlen x) w n c)) (pwvd_val x w c) f.
Proof. intros. apply scatter_fft_gen; auto. Qed.

(** Time marginal, whatever the window length. *)
Lemma pwvd_total x w n c : 0 < n -> w <> [] -> 0 <= c < zlen x ->
  csum (arange 0 n) (fun f => cnth (fft (pwvd_raw x w n c)) f) =
  (RtoC (IZR n) * (cnth w (win_lh w) * RtoC (Cmod (cnth x c) ^ 2)))%C.
Proof.
  intros Hn Hw Hc.
  assert (Lw : 0 <= win_lh w).
  { assert (1 <= zlen w) by (destruct w; [congruence|unfold zlen; cbn [length]; lia]).
    unfold win_lh. Z.to_euclidean_division_equations; lia. }
  assert (Hh := round_half_bounds n).
  rewrite (csum_ext _ _ (esum n (lastdup n (pwvd_taus (zlen x) w n c)) (pwvd_val x w c))).
  2:{ intros f Hf. apply in_arange in Hf. apply pwvd_entry; auto. }
  rewrite esum_total by auto. f_equal.
  assert (U : forall t, In t (pwvd_taus (zlen x) w n c) -> t mod n = 0 -> t = 0).
  { intros t Ht E. unfold pwvd_taus in Ht. apply in_arange in Ht.
    apply Z.mod_divide in E; [|lia]. destruct E as [q E].
    assert (- n < t < n) by (destruct (Z.eq_dec n 1) as [->|]; [change (round_half 1) with 0 in Ht|]; lia).
    assert (q = 0) by nia. subst. lia. }
  assert (I0 : In 0 (lastdup n (pwvd_taus (zlen x) w n c))).
  { assert (J : In (0 mod n) (map (fun t => t mod n) (lastdup n (pwvd_taus (zlen x) w n c)))).
    { apply lastdup_mod. apply (in_map (fun t => t mod n)). unfold pwvd_taus. apply in_arange. lia. }
    rewrite Z.mod_0_l in J by lia. apply in_map_iff in J. destruct J as [t [E J]].
    assert (t = 0) by (apply U; auto; eapply lastdup_in; eauto). now subst. }
  rewrite (csum_single _ 0).
  - rewrite Z.mod_0_l by lia. cbn [Z.eqb]. unfold pwvd_val.
    rewrite !Z.add_0_r, Z.sub_0_r, Cmod2_conj. ring.
  - eapply NoDup_map_inv. apply lastdup_NoDup.
  - auto.
  - intros k Hk Hne. destruct (Z.eqb_spec (k mod n) 0) as [E|E]; auto.
    exfalso. apply Hne. apply U; auto. eapply lastdup_in; eauto.
Qed.

Lemma pwvd_closed x w n c f : 0 < n -> win_lh w < round_half n -> 0 <= f < n -> 0 <= c ->
  cnth (fft (pwvd_raw x w n c)) f = PWV x w n f c.
Proof.
  intros Hn Hw Hf Hc. unfold pwvd_raw. rewrite scatter_fft by (auto; apply pwvd_taus_nodup; auto).
  unfold PWV, esum. rewrite pwvd_taus_small by auto.
  set (m := Z.min (Z.min c (zlen x - c - 1)) (win_lh w)). cbn zeta.
  assert (HN := zlen_nonneg x).
  symmetry. rewrite (csum_incl (arange (- m) (m + 1))).
  - apply csum_ext. intros t Ht. apply in_arange in Ht.
    rewrite !sigf_in by lia. rewrite winf_lh_in by lia. unfold pwvd_val. ring.
  - apply NoDup_arange.
  - apply NoDup_arange.
  - intros k Hk. apply in_arange in Hk. apply in_arange. lia.
  - intros k Hk Hk'. rewrite in_arange in Hk, Hk'.
    assert (D : (c + k < 0 \/ zlen x <= c + k) \/ (c - k < 0 \/ zlen x <= c - k) \/
                (k < - win_lh w \/ win_lh w < k)) by lia.
    destruct D as [D|[D|D]].
    + rewrite (sigf_out x _ D); ring.
    + rewrite (sigf_out x (c - k) D), Cconj_R; ring.
    + rewrite winf_lh_out by auto. ring.
Qed.

Lemma PWV_real x w n f t : (forall k, winf w (- k) = Cconj (winf w k)) -> Im (PWV x w n f t) = 0%R.
Proof.
  intros Hw. apply conj_Im0. unfold PWV. rewrite csum_conj.
  rewrite (csum_arange_sym (zlen x) (fun k => winf w k * (sigf x (t + k) * Cconj (sigf x (t - k))) * root n (- (f * k)))%C).
  apply csum_ext. intros k _. rewrite !Cconj_mult, Cconj_invol, root_conj, Hw.
  replace (t + - k) with (t - k) by lia. replace (t - - k) with (t + k) by lia.
  replace (f * - k) with (- (f * k)) by ring. ring.
Qed.

(** A window that is 1 on all lags of interest changes nothing. *)
Lemma PWV_rect x w n f t : 0 <= t < zlen x ->
  (forall k, - Z.min t (zlen x - 1 - t) <= k <= Z.min t (zlen x - 1 - t) -> winf w k = RtoC 1) ->
  PWV x w n f t = WV x n f t.
Proof.
  intros Ht Hw. unfold PWV, WV. apply csum_ext. intros k Hk.
  destruct (Z_le_dec (- Z.min t (zlen x - 1 - t)) k), (Z_le_dec k (Z.min t (zlen x - 1 - t))).
  - rewrite Hw by lia. ring.
  - assert (D : zlen x <= t + k \/ t - k < 0) by lia.
    destruct D as [D|D]; [rewrite (sigf_out x (t + k)) by lia|rewrite (sigf_out x (t - k)), Cconj_R by lia]; ring.
  - assert (D : zlen x <= t - k \/ t + k < 0) by lia.
    destruct D as [D|D]; [rewrite (sigf_out x (t - k)), Cconj_R by lia|rewrite (sigf_out x (t + k)) by lia]; ring.
  - exfalso. lia.
Qed.
