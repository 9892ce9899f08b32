(** C33-C35: the narrow-band ambiguity function. *)
From Coq Require Import Reals ZArith List Lia Lra Bool Psatz.
From Coquelicot Require Import Coquelicot.
From Verif Require Import Py Scalars CSum DFT Spec M_base M_amb P_base P_stft.
Import ListNotations.
Local Open Scope Z_scope.

(** Ambiguity function of the zero-extended signal:
    sum_t x[t+tau] conj(x[t-tau]) exp(-2 i pi k t / n). *)
Definition AF (x : list C) (n k tau : Z) : C :=
  csum (arange 0 (zlen x)) (fun t => sigf x (t + tau) * Cconj (sigf x (t - tau)) * root n (- (k * t)))%C.

Definition nb_val (x : list C) (tau t : Z) : C := (cnth x (t + tau) * Cconj (cnth x (t - tau)))%C.
Definition nb_ts (x : list C) (tau : Z) : list Z := arange (Z.abs tau) (zlen x - Z.abs tau).

Lemma put_aux_raise {A} (l : list A) ivs : (exists i v, In (i, v) ivs /\ zlen l <= i) -> put_aux l ivs = Raise IndexError.
Proof.
  revert l. induction ivs as [|[i v] ivs IH]; intros l [i' [v' [H Hi]]]; [destruct H|]. destruct H as [E|H].
  - assert (i = i') by congruence. subst i'. cbn [put_aux]. rewrite set_raise by lia. reflexivity.
  - cbn [put_aux]. unfold set at 1. destruct (pyidx (zlen l) i); cbn [bind]; auto.
    apply IH. exists i', v'. rewrite upd_zlen. auto.
Qed.

Lemma nb_col_put (x : list C) nf tau : nb_col x nf tau =
  put_aux (zeros nf) (map (fun t => (t, nb_val x tau t)) (nb_ts x tau)).
Proof.
  unfold nb_col. fold (nb_ts x tau).
  rewrite (take_ok (RtoC 0)).
  2:{ intros i Hi. apply in_map_iff in Hi. destruct Hi as [t [<- Ht]]. unfold nb_ts in Ht. apply in_arange in Ht. lia. }
  cbn [bind]. rewrite (take_ok (RtoC 0)).
  2:{ intros i Hi. apply in_map_iff in Hi. destruct Hi as [t [<- Ht]]. unfold nb_ts in Ht. apply in_arange in Ht. lia. }
  cbn [bind]. rewrite !map_map, bcast_map. cbn [bind].
  unfold put. rewrite map_length, Nat.eqb_refl.
  generalize (nb_ts x tau). intros ts. f_equal.
  induction ts as [|t ts IH]; cbn [map combine]; [reflexivity|]. f_equal; auto.
Qed.

(** A column raises exactly when it has a time index beyond the bins. *)
Definition nb_bad (n nf tau : Z) : Prop := Z.abs tau < n - Z.abs tau /\ nf < n - Z.abs tau.

Lemma nb_col_raise (x : list C) nf tau : 0 <= nf -> nb_bad (zlen x) nf tau -> nb_col x nf tau = Raise IndexError.
Proof.
  intros Hn [H1 H2]. rewrite nb_col_put. apply put_aux_raise.
  exists (zlen x - Z.abs tau - 1), (nb_val x tau (zlen x - Z.abs tau - 1)). split.
  - apply in_map_iff. eexists. split; [reflexivity|]. unfold nb_ts. apply in_arange. lia.
  - rewrite zeros_zlen by lia. lia.
Qed.

Lemma nb_col_ok x nf tau : 0 < nf -> ~ nb_bad (zlen x) nf tau ->
  nb_col x nf tau = Ok (scatter nf (nb_ts x tau) (nb_val x tau)).
Proof.
  intros Hn Hb. rewrite nb_col_put.
  assert (B : forall t, In t (nb_ts x tau) -> 0 <= t < nf).
  { intros t Ht. unfold nb_ts in Ht. apply in_arange in Ht. unfold nb_bad in Hb. lia. }
  rewrite put_aux_ok.
  - unfold scatter. do 2 f_equal. apply map_ext_in. intros t Ht. f_equal. rewrite mod_add_n by lia.
    rewrite Z.mod_small; auto.
  - intros i v Hi. apply in_map_iff in Hi. destruct Hi as [t [E Ht]]. assert (i = t) by congruence. subst i.
    rewrite zeros_zlen by lia. auto.
Qed.

(** The whole call. *)
Lemma nb_cases (x : list C) lag nf : 1 <= nf ->
  ((exists tau, In tau lag /\ nb_bad (zlen x) nf tau) /\ narrow_band x (Some lag) (Some nf) = Raise IndexError) \/
  ((forall tau, In tau lag -> ~ nb_bad (zlen x) nf tau) /\
   narrow_band x (Some lag) (Some nf) =
   Ok (map (fun tau => map (fun k => cnth (fft (scatter nf (nb_ts x tau) (nb_val x tau))) k) (nb_rows nf)) lag, lag, nb_xi nf)).
Proof.
  intros Hn. unfold narrow_band. destruct (Z.ltb_spec nf 0); [lia|].
  assert (D : (exists tau, In tau lag /\ nb_bad (zlen x) nf tau) \/ forall tau, In tau lag -> ~ nb_bad (zlen x) nf tau).
  { induction lag as [|a l IH].
    - right. intros tau [].
    - assert (Da : nb_bad (zlen x) nf a \/ ~ nb_bad (zlen x) nf a) by (unfold nb_bad; lia).
      destruct Da as [Da|Da]; [left; exists a; split; [left|]; auto|].
      destruct IH as [(t & Ht & B)|IH]; [left; exists t; split; [right|]; auto|].
      right. intros tau [<-|Ht]; auto. }
  destruct D as [(tau & Ht & B)|D].
  - left. split; [eauto|]. rewrite (mapM_raise _ _ IndexError); [reflexivity| |].
    + intros a _. assert (Da : nb_bad (zlen x) nf a \/ ~ nb_bad (zlen x) nf a) by (unfold nb_bad; lia).
      destruct Da as [Da|Da]; [right; apply nb_col_raise; auto; lia|left]. rewrite nb_col_ok by (auto; lia). eauto.
    + exists tau. split; auto. apply nb_col_raise; auto; lia.
  - right. split; auto.
    rewrite (mapM_ok _ (fun tau => scatter nf (nb_ts x tau) (nb_val x tau))) by (intros a Ha; apply nb_col_ok; auto; lia).
    cbn [bind]. destruct (Z.eqb_spec nf 0); [lia|]. rewrite mapM_map.
    rewrite (mapM_ok _ (fun tau => map (fun k => cnth (fft (scatter nf (nb_ts x tau) (nb_val x tau))) k) (nb_rows nf))).
    + reflexivity.
    + intros tau _. rewrite (take_ok (RtoC 0)); [reflexivity|]. intros i Hi. rewrite fft_zlen, scatter_zlen by lia.
      unfold nb_rows in Hi. apply in_app_iff in Hi. rewrite !in_arange in Hi.
      Z.to_euclidean_division_equations. lia.
Qed.

Lemma nb_rows_nth nf r : 0 < nf -> 0 <= r < nf -> nth (Z.to_nat r) (nb_rows nf) 0 = (r - nf / 2) mod nf.
Proof.
  intros Hn Hr. unfold nb_rows. set (h := (nf + nf mod 2) / 2).
  assert (Hh : h = nf - nf / 2 /\ 0 <= h <= nf) by (unfold h; Z.to_euclidean_division_equations; lia).
  destruct (Z.lt_ge_cases r (nf - h)) as [L|L].
  - rewrite app_nth1 by (rewrite arange_length; lia).
    rewrite <- (map_id (arange h nf)), nth_map_arange by lia.
    replace (r - nf / 2) with (h + r + (-1) * nf) by lia. rewrite Z.mod_add by lia. symmetry. apply Z.mod_small. lia.
  - rewrite app_nth2 by (rewrite arange_length; lia). rewrite arange_length.
    replace (Z.to_nat r - Z.to_nat (nf - h))%nat with (Z.to_nat (r - (nf - h))) by lia.
    rewrite <- (map_id (arange 0 h)), nth_map_arange by lia.
    rewrite Z.mod_small by lia. lia.
Qed.

Lemma nb_rows_zlen nf : 0 <= nf -> zlen (nb_rows nf) = nf.
Proof. intros. unfold nb_rows. rewrite zlen_app, !arange_zlen. Z.to_euclidean_division_equations. lia. Qed.

Lemma AF_esum x nf k tau : AF x nf k tau = esum nf (nb_ts x tau) (nb_val x tau) k.
Proof.
  unfold AF, esum, nb_ts. rewrite (csum_incl (arange (Z.abs tau) (zlen x - Z.abs tau)) (arange 0 (zlen x))).
  - apply csum_ext. intros t Ht. apply in_arange in Ht. unfold nb_val. rewrite !sigf_in by lia. reflexivity.
  - apply NoDup_arange.
  - apply NoDup_arange.
  - intros t Ht. apply in_arange in Ht. apply in_arange. lia.
  - intros t Ht Ho. rewrite in_arange in *.
    assert (t + tau < 0 \/ zlen x <= t + tau \/ t - tau < 0 \/ zlen x <= t - tau) as [O|[O|[O|O]]] by lia.
    + rewrite (sigf_out x (t + tau)) by auto. ring.
    + rewrite (sigf_out x (t + tau)) by auto. ring.
    + rewrite (sigf_out x (t - tau)), Cconj_R by auto. ring.
    + rewrite (sigf_out x (t - tau)), Cconj_R by auto. ring.
Qed.

Lemma nb_entry x nf tau r : 0 < nf -> ~ nb_bad (zlen x) nf tau -> 0 <= r < nf ->
  cnth (map (fun k => cnth (fft (scatter nf (nb_ts x tau) (nb_val x tau))) k) (nb_rows nf)) r = AF x nf (r - nf / 2) tau.
Proof.
  intros Hn Hb Hr. unfold cnth at 1.
  rewrite (nth_indep _ (RtoC 0) ((fun k => cnth (fft (scatter nf (nb_ts x tau) (nb_val x tau))) k) 0)).
  2:{ rewrite map_length. assert (L := nb_rows_zlen nf ltac:(lia)). unfold zlen in L. lia. }
  rewrite (map_nth (fun k => cnth (fft (scatter nf (nb_ts x tau) (nb_val x tau))) k)), nb_rows_nth by lia.
  rewrite scatter_fft; auto.
  - rewrite esum_mod by lia. symmetry. apply AF_esum.
  - apply NoDup_mod_arange; auto. unfold nb_bad in Hb. lia.
  - apply Z.mod_pos_bound. lia.
Qed.

(** Outcome of every call: IndexError exactly when a lag leaves more samples
    than there are bins; otherwise one column per lag, [nf] rows, and the entry in
    row r, column c is the ambiguity function at the r-th Doppler value and c-th lag. *)
Lemma c33_outcome : forall x lag nf, 1 <= nf ->
  ((exists tau, In tau lag /\ 2 * Z.abs tau < zlen x /\ nf < zlen x - Z.abs tau) /\
   narrow_band x (Some lag) (Some nf) = Raise IndexError) \/
  ((forall tau, In tau lag -> ~ (2 * Z.abs tau < zlen x /\ nf < zlen x - Z.abs tau)) /\
   exists naf xi, narrow_band x (Some lag) (Some nf) = Ok (naf, lag, xi) /\
   zlen naf = zlen lag /\ (forall c, In c naf -> zlen c = nf) /\ zlen xi = nf /\
   (forall r, 0 <= r < nf -> rnth xi r = (IZR (r - nf / 2) / IZR nf)%R) /\
   forall r c, 0 <= r < nf -> 0 <= c < zlen lag ->
     at2 naf r c = AF x nf (r - nf / 2) (nth (Z.to_nat c) lag 0)).
Proof.
  intros x lag nf Hn. destruct (nb_cases x lag nf Hn) as [[(tau & Ht & B) E]|[B E]].
  - left. split; auto. exists tau. split; auto. unfold nb_bad in B. lia.
  - right. split. { intros tau Ht Q. apply (B tau Ht). unfold nb_bad. lia. }
    eexists. exists (nb_xi nf). split; [exact E|]. 
    assert (Hd : - (nf - nf mod 2) / 2 = - (nf / 2)) by (Z.to_euclidean_division_equations; lia).
    assert (Hl : (nf + nf mod 2) / 2 - 1 + 1 - - (nf / 2) = nf) by (Z.to_euclidean_division_equations; lia).
    split; [apply zlen_map|]. split; [|split; [|split]].
    + intros c Hc. apply in_map_iff in Hc. destruct Hc as [t [<- _]]. rewrite zlen_map. apply nb_rows_zlen. lia.
    + unfold nb_xi. rewrite zlen_map, arange_zlen, Hd. lia.
    + intros r Hr. unfold nb_xi, rnth. rewrite Hd, nth_map_arange by lia. do 2 f_equal. lia.
    + intros r c Hr Hc. unfold at2.
      set (F := fun tau => map (fun k => cnth (fft (scatter nf (nb_ts x tau) (nb_val x tau))) k) (nb_rows nf)).
      rewrite (nth_indep _ [] (F 0)) by (rewrite map_length; unfold zlen in Hc; lia).
      rewrite (map_nth F). unfold F. apply nb_entry; try lia. apply B. apply nth_In. unfold zlen in Hc. lia.
Qed.

(** Without a bin every call raises. *)
Lemma c33_no_bins : forall (x : list C) lag nf, nf <= 0 -> exists e, narrow_band x (Some lag) (Some nf) = Raise e /\ (nf < 0 -> e = ValueError).
Proof.
  intros x lag nf Hn. unfold narrow_band. destruct (Z.ltb_spec nf 0); [eauto|]. assert (nf = 0) by lia. subst nf.
  destruct (mapM (nb_col x 0) lag) as [c|e]; cbn [bind Z.eqb]; eexists; (split; [reflexivity|lia]).
Qed.

(** With at least as many bins as samples nothing raises, whatever the lags; the
    defaults are of that kind. *)
Lemma c33_total : forall (x : list C) lag nf, 1 <= nf -> zlen x <= nf -> exists r, narrow_band x (Some lag) (Some nf) = Ok r.
Proof.
  intros x lag nf Hn HN. destruct (c33_outcome x lag nf Hn) as [[(t & _ & H) _]|[_ (naf & xi & E & _)]]; [lia|eauto].
Qed.
Lemma c33_default : forall (x : list C), narrow_band x None None = narrow_band x (Some (nb_lags (zlen x))) (Some (zlen x)) /\
  forall tau, In tau (nb_lags (zlen x)) <-> (2 * Z.abs tau < zlen x).
Proof.
  intros x. split; [reflexivity|]. intros tau. assert (H := zlen_nonneg x). unfold nb_lags.
  destruct (Z.eqb_spec (zlen x mod 2) 0); rewrite in_arange; Z.to_euclidean_division_equations; lia.
Qed.

(** Value at the origin and maximality. *)
Lemma AF_origin x n : AF x n 0 0 = RtoC (energy x).
Proof.
  unfold AF. rewrite energy_nth, RtoC_rsum. apply csum_ext. intros t Ht. apply in_arange in Ht.
  rewrite Z.add_0_r, Z.sub_0_r, sigf_in, Cmod2_conj by lia. rewrite Z.mul_0_l. change (- 0) with 0. rewrite root_0. ring.
Qed.
Lemma shift_energy_le x tau : (rsum (arange 0 (zlen x)) (fun t => Cmod (sigf x (t + tau)) ^ 2) <= energy x)%R.
Proof.
  rewrite <- (rsum_arange_shift 0 (zlen x) tau (fun t => Cmod (sigf x t) ^ 2)%R). rewrite energy_nth.
  set (m := arange (Z.min 0 (0 + tau)) (Z.max (zlen x) (zlen x + tau))).
  apply Rle_trans with (rsum m (fun t => Cmod (sigf x t) ^ 2)%R).
  - apply Rle_trans with (rsum (filter (fun t => (0 + tau <=? t) && (t <? zlen x + tau)) m) (fun t => Cmod (sigf x t) ^ 2)%R).
    + apply Req_le. apply rsum_perm. apply Permutation.NoDup_Permutation; [apply NoDup_arange|apply NoDup_filter, NoDup_arange|].
      intros t. rewrite filter_In. unfold m. rewrite !in_arange, andb_true_iff, Z.leb_le, Z.ltb_lt. lia.
    + rewrite rsum_filter. apply rsum_le. intros t _. destruct (_ && _); [lra|apply pow2_ge_0].
  - apply Req_le. symmetry. rewrite (rsum_ext _ _ (fun t => Cmod (sigf x t) ^ 2)%R).
    + symmetry. apply rsum_incl; [apply NoDup_arange|apply NoDup_arange| |].
      * intros t Ht. unfold m. rewrite in_arange in *. lia.
      * intros t Ht Ho. rewrite in_arange in Ho. rewrite sigf_out by lia. rewrite Cmod_0. ring.
    + intros t Ht. apply in_arange in Ht. now rewrite sigf_in by lia.
Qed.
Lemma AF_bound x n k tau : (Cmod (AF x n k tau) <= energy x)%R.
Proof.
  assert (E := energy_nonneg x). apply Rsqr_incr_0_var; auto. rewrite !Rsqr_pow2. unfold AF.
  rewrite (csum_ext _ _ (fun t => sigf x (t + tau) * (Cconj (sigf x (t - tau)) * root n (- (k * t))))%C) by (intros; ring).
  eapply Rle_trans; [apply csum_cauchy|]. replace (energy x ^ 2)%R with (energy x * energy x)%R by ring.
  apply Rmult_le_compat.
  - apply rsum_nonneg. intros. apply pow2_ge_0.
  - apply rsum_nonneg. intros. apply pow2_ge_0.
  - apply shift_energy_le.
  - rewrite (rsum_ext _ _ (fun t => Cmod (sigf x (t + (- tau))) ^ 2)%R); [apply shift_energy_le|].
    intros t _. rewrite Cmod_mult, Cmod_root, Cmod_conj. replace (t + - tau) with (t - tau) by lia. ring.
Qed.

Lemma c33_origin_and_maximum : forall x lag nf naf lag' xi, 1 <= nf ->
  narrow_band x (Some lag) (Some nf) = Ok (naf, lag', xi) ->
  (forall c, 0 <= c < zlen lag -> nth (Z.to_nat c) lag 0 = 0 -> at2 naf (nf / 2) c = RtoC (energy x)) /\
  (forall r c, 0 <= r < nf -> 0 <= c < zlen lag -> (Cmod (at2 naf r c) <= energy x)%R).
Proof.
  intros x lag nf naf lag' xi Hn H. destruct (c33_outcome x lag nf Hn) as [[_ E]|[_ (naf' & xi' & E & _ & _ & _ & _ & V)]].
  - congruence.
  - assert (naf' = naf) by congruence. subst naf'. split.
    + intros c Hc H0. rewrite V by (Z.to_euclidean_division_equations; lia). rewrite H0, Z.sub_diag. apply AF_origin.
    + intros r c Hr Hc. rewrite V by auto. apply AF_bound.
Qed.

(** *** C34 *)
Lemma AF_period x n k j tau : n <> 0 -> k mod n = j mod n -> AF x n k tau = AF x n j tau.
Proof.
  intros Hn H. unfold AF. apply csum_ext. intros t _. f_equal.
  replace (- (k * t)) with (k * (- t)) by ring. replace (- (j * t)) with (j * (- t)) by ring.
  rewrite <- (root_mod_mul_l n k), <- (root_mod_mul_l n j) by auto. now rewrite H.
Qed.
Lemma AF_hermitian x n k tau : AF x n (- k) (- tau) = Cconj (AF x n k tau).
Proof.
  unfold AF. rewrite csum_conj. apply csum_ext. intros t _.
  rewrite !Cconj_mult, Cconj_invol, root_conj. replace (t + - tau) with (t - tau) by lia. replace (t - - tau) with (t + tau) by lia.
  replace (- - (k * t)) with (- (- k * t)) by ring. ring.
Qed.
Lemma c34_hermitian : forall x lag nf naf lag' xi r c r' c', 1 <= nf ->
  narrow_band x (Some lag) (Some nf) = Ok (naf, lag', xi) ->
  0 <= r < nf -> 0 <= r' < nf -> 0 <= c < zlen lag -> 0 <= c' < zlen lag ->
  (* opposite Doppler (modulo the sampling) and opposite lag *)
  ((r - nf / 2) + (r' - nf / 2)) mod nf = 0 -> nth (Z.to_nat c') lag 0 = - nth (Z.to_nat c) lag 0 ->
  at2 naf r' c' = Cconj (at2 naf r c).
Proof.
  intros x lag nf naf lag' xi r c r' c' Hn H Hr Hr' Hc Hc' Hk Hl.
  destruct (c33_outcome x lag nf Hn) as [[_ E]|[_ (naf' & xi' & E & _ & _ & _ & _ & V)]]; [congruence|].
  assert (naf' = naf) by congruence. subst naf'. rewrite !V by auto. rewrite Hl, <- AF_hermitian.
  apply AF_period; [lia|]. apply Z.mod_divide in Hk; [|lia]. destruct Hk as [q Hk].
  replace (r' - nf / 2) with (- (r - nf / 2) + q * nf) by lia. apply Z.mod_add. lia.
Qed.

(** *** C35 *)
(** Energy of the samples with the given parity of the index. *)
Definition parity_energy (b : bool) (x : list C) : R :=
  rsum (filter (fun k => Bool.eqb (Z.odd k) b) (arange 0 (zlen x))) (fun k => Cmod (cnth x k) ^ 2)%R.

Lemma rsum_reindex {A B} (l : list A) (l' : list B) (g : A -> B) (f : B -> R) :
  NoDup (map g l) -> NoDup l' -> (forall b, In b l' <-> In b (map g l)) -> rsum l (fun a => f (g a)) = rsum l' f.
Proof.
  intros N N' H. rewrite <- (rsum_map g l f). apply rsum_perm. apply Permutation.NoDup_Permutation; auto.
  intros b. symmetry. apply H.
Qed.

Lemma rsum_prod {A B} (l : list A) (l' : list B) (f : A -> B -> R) :
  rsum (list_prod l l') (fun p => f (fst p) (snd p)) = rsum l (fun a => rsum l' (f a)).
Proof.
  induction l as [|a l IH]; [reflexivity|]. cbn [list_prod]. rewrite rsum_app, rsum_map, rsum_cons, IH. reflexivity.
Qed.
Lemma NoDup_prod {A B} (l : list A) (l' : list B) : NoDup l -> NoDup l' -> NoDup (list_prod l l').
Proof.
  intros H H'. induction H as [|a l Ha H IH]; [constructor|]. cbn [list_prod]. 
  assert (NA : NoDup (map (fun y => (a, y)) l')).
  { apply NoDup_map_inj; auto. intros; congruence. }
  revert NA IH. assert (D : forall p, In p (map (fun y => (a, y)) l') -> ~ In p (list_prod l l')).
  { intros p Hp Hq. apply in_map_iff in Hp. destruct Hp as [y [<- _]]. apply in_prod_iff in Hq. tauto. }
  revert D. generalize (map (fun y => (a, y)) l') as m. generalize (list_prod l l') as m'. clear.
  intros m' m D N N'. induction N as [|p m Hp N IH]; [auto|]. cbn. constructor.
  - rewrite in_app_iff. intros [Q|Q]; [auto|]. apply (D p); [left; auto|auto].
  - apply IH. intros q Hq. apply D. right; auto.
Qed.

(** Sum over lag and time of a function of t+tau and t-tau is the sum over pairs
    of indices of equal parity. *)
Lemma diamond N (p : Z -> R) : 0 <= N ->
  rsum (nb_lags N) (fun tau => rsum (arange (Z.abs tau) (N - Z.abs tau)) (fun t => p (t + tau)%Z * p (t - tau)%Z)%R) =
  (rsum (filter (fun k => Bool.eqb (Z.odd k) false) (arange 0 N)) p ^ 2 +
   rsum (filter (fun k => Bool.eqb (Z.odd k) true) (arange 0 N)) p ^ 2)%R.
Proof.
  intros HN. set (e := fun b k => Bool.eqb (Z.odd k) b).
  assert (HL : forall tau, In tau (nb_lags N) <-> 2 * Z.abs tau < N).
  { intros tau. unfold nb_lags. destruct (Z.eqb_spec (N mod 2) 0); rewrite in_arange; Z.to_euclidean_division_equations; lia. }
  assert (HLn : NoDup (nb_lags N)) by (unfold nb_lags; destruct (_ =? _); apply NoDup_arange).
  set (P := filter (fun q => (Z.abs (fst q) <=? snd q) && (snd q <? N - Z.abs (fst q))) (list_prod (nb_lags N) (arange 0 N))).
  transitivity (rsum P (fun q => p (snd q + fst q)%Z * p (snd q - fst q)%Z)%R).
  { unfold P. rewrite rsum_filter. 
    etransitivity; [|symmetry; exact (rsum_prod (nb_lags N) (arange 0 N) (fun tau t => if (Z.abs tau <=? t) && (t <? N - Z.abs tau) then (p (t + tau)%Z * p (t - tau)%Z)%R else 0%R))].
    apply rsum_ext. intros tau Ht. rewrite <- rsum_filter. apply rsum_perm.
    apply Permutation.NoDup_Permutation; [apply NoDup_arange|apply NoDup_filter, NoDup_arange|].
    intros t. rewrite filter_In, !in_arange, andb_true_iff, Z.leb_le, Z.ltb_lt. lia. }
  set (Q := filter (fun q => Bool.eqb (Z.odd (fst q)) (Z.odd (snd q))) (list_prod (arange 0 N) (arange 0 N))).
  transitivity (rsum Q (fun q => p (fst q) * p (snd q))%R).
  { rewrite <- (rsum_reindex P Q (fun q => (snd q + fst q, snd q - fst q)) (fun q => p (fst q) * p (snd q))%R).
    - reflexivity.
    - apply NoDup_map_inj.
      + intros [a b] [c d] _ _ E. cbn [fst snd] in E.
        assert (b + a = d + c) by congruence. assert (b - a = d - c) by congruence. f_equal; lia.
      + apply NoDup_filter, NoDup_prod; auto. apply NoDup_arange.
    - apply NoDup_filter, NoDup_prod; apply NoDup_arange.
    - intros [a b]. unfold Q. rewrite filter_In, in_prod_iff, !in_arange. cbn [fst snd]. rewrite in_map_iff. split.
      + intros [[Ha Hb] E]. apply eqb_prop in E.
        assert (exists s, a + b = 2 * s) as [s Hs].
        { assert (Ev : Z.even (a + b) = true) by (rewrite <- Z.negb_odd, Z.odd_add, E; destruct (Z.odd b); reflexivity).
          apply Z.even_spec in Ev. destruct Ev as [s Ev]. eauto. }
        exists (s - b, s). cbn [fst snd]. split; [f_equal; lia|]. unfold P. rewrite filter_In, in_prod_iff, in_arange. cbn [fst snd].
        rewrite HL, andb_true_iff, Z.leb_le, Z.ltb_lt. lia.
      + intros [[tau t] [E Hin]]. cbn [fst snd] in E. assert (t + tau = a) by congruence. assert (t - tau = b) by congruence. subst a b.
        unfold P in Hin. rewrite filter_In, in_prod_iff, in_arange in Hin. cbn [fst snd] in Hin.
        rewrite HL, andb_true_iff, Z.leb_le, Z.ltb_lt in Hin. split; [lia|].
        rewrite Z.odd_add, Z.odd_sub. destruct (Z.odd t), (Z.odd tau); reflexivity. }
  transitivity (rsum (arange 0 N) (fun a => rsum (filter (e (Z.odd a)) (arange 0 N)) (fun b => p a * p b)))%R.
  { unfold Q. rewrite rsum_filter.
    etransitivity; [exact (rsum_prod (arange 0 N) (arange 0 N) (fun a b => if Bool.eqb (Z.odd a) (Z.odd b) then (p a * p b)%R else 0%R))|].
    apply rsum_ext. intros a _. rewrite rsum_filter. apply rsum_ext. intros b _. unfold e.
    destruct (Z.odd a), (Z.odd b); reflexivity. }
  rewrite (rsum_ext _ _ (fun a => (if e false a then p a * rsum (filter (e false) (arange 0 N)) p else 0)
                               + (if e true a then p a * rsum (filter (e true) (arange 0 N)) p else 0))%R).
  - rewrite rsum_plus, <- !rsum_filter, !rsum_scal_r. fold (e false) (e true). ring.
  - intros a _. rewrite rsum_scal_l. assert (Ef : e false a = Bool.eqb (Z.odd a) false) by reflexivity. assert (Et : e true a = Bool.eqb (Z.odd a) true) by reflexivity.
    rewrite Ef, Et. destruct (Z.odd a); cbn [Bool.eqb]; ring.
Qed.

Lemma c35_volume : forall x nf naf lag xi, 1 <= nf ->
  narrow_band x None (Some nf) = Ok (naf, lag, xi) ->
  rsum (arange 0 (zlen lag)) (fun c => rsum (arange 0 nf) (fun r => Cmod (at2 naf r c) ^ 2))%R =
  (IZR nf * (parity_energy false x ^ 2 + parity_energy true x ^ 2))%R.
Proof.
  intros x nf naf lag xi Hn H.
  assert (H' : narrow_band x (Some (nb_lags (zlen x))) (Some nf) = Ok (naf, lag, xi)) by exact H.
  destruct (c33_outcome x (nb_lags (zlen x)) nf Hn) as [[_ E]|[B (naf' & xi' & E & _ & _ & _ & _ & V)]]; [congruence|].
  assert (naf' = naf) by congruence. assert (lag = nb_lags (zlen x)) by congruence. subst naf' lag.
  set (L := nb_lags (zlen x)) in *.
  unfold parity_energy. rewrite <- diamond by apply zlen_nonneg. fold L. rewrite <- rsum_scal_l.
  transitivity (rsum L (fun tau => rsum (arange 0 nf) (fun r => Cmod (AF x nf (r - nf / 2) tau) ^ 2))%R).
  { transitivity (rsum (map (fun c => nth (Z.to_nat c) L 0) (arange 0 (zlen L))) (fun tau => rsum (arange 0 nf) (fun r => Cmod (AF x nf (r - nf / 2) tau) ^ 2))%R).
    - rewrite rsum_map. apply rsum_ext. intros c Hc. apply in_arange in Hc. apply rsum_ext. intros r Hr. apply in_arange in Hr.
      rewrite V by auto. reflexivity.
    - f_equal. apply list_nth_ext. intros k. rewrite nth_error_map. destruct (Nat.lt_ge_cases k (length L)) as [Q|Q].
      + rewrite nth_error_arange by (unfold zlen; lia). cbn [option_map]. rewrite Z.add_0_l, Nat2Z.id. symmetry. now apply nth_error_nth'.
      + rewrite (proj2 (nth_error_None L k)) by auto. rewrite (proj2 (nth_error_None (arange 0 (zlen L)) k)); auto.
        rewrite arange_length. unfold zlen. lia. }
  apply rsum_ext. intros tau Ht.
  assert (Hb : ~ (2 * Z.abs tau < zlen x /\ nf < zlen x - Z.abs tau)) by auto.
  transitivity (rsum (arange 0 nf) (fun k => Cmod (AF x nf k tau) ^ 2)%R).
  { transitivity (rsum (map (fun r => (r + (- (nf / 2))) mod nf) (arange 0 nf)) (fun k => Cmod (AF x nf k tau) ^ 2)%R).
    - rewrite rsum_map. apply rsum_ext. intros r _. do 2 f_equal. apply AF_period; [lia|]. rewrite Z.mod_mod by lia. reflexivity.
    - apply rsum_perm. apply perm_mod_shift. lia. }
  rewrite (rsum_ext _ _ (fun k => Cmod (esum nf (nb_ts x tau) (nb_val x tau) k) ^ 2)%R) by (intros; now rewrite AF_esum).
  rewrite esum_energy; [|lia|apply NoDup_mod_arange; [lia|]].
  - f_equal. unfold nb_ts. apply rsum_ext. intros t _. unfold nb_val. rewrite Cmod_mult, Cmod_conj. ring.
  - destruct (c33_default x) as [_ D]. apply D in Ht. lia.
Qed.

(** Concrete case: x = [1, i, 2], three bins: the value at the origin is 6, the
    volume 3 (5^2 + 1^2). *)
Example c35_example : let x := [RtoC 1; Ci; RtoC 2] in energy x = 6%R /\
  (IZR 3 * (parity_energy false x ^ 2 + parity_energy true x ^ 2))%R = 78%R /\
  exists naf xi, narrow_band x None (Some 3) = Ok (naf, [-1; 0; 1], xi).
Proof.
  cbn zeta. assert (M1 : (Cmod (RtoC 1) ^ 2 = 1)%R) by (rewrite Cmod_R, Rabs_R1; ring).
  assert (M2 : (Cmod (RtoC 2) ^ 2 = 4)%R) by (rewrite Cmod_R, Rabs_right by lra; ring).
  assert (Mi : (Cmod Ci ^ 2 = 1)%R) by (rewrite Cmod_sqr; cbn; ring).
  split; [|split].
  - unfold energy. rewrite !rsum_cons, rsum_nil. rewrite M1, M2, Mi. ring.
  - unfold parity_energy. change (arange 0 (zlen [RtoC 1; Ci; RtoC 2])) with [0; 1; 2]. cbn [filter Z.odd Bool.eqb].
    rewrite !rsum_cons, !rsum_nil. eval_cnth. rewrite M1, M2, Mi. ring.
  - destruct (c33_total [RtoC 1; Ci; RtoC 2] (nb_lags 3) 3 ltac:(lia)) as [[[naf lag] xi] E].
    + change (zlen [RtoC 1; Ci; RtoC 2]) with 3. lia.
    + exists naf, xi. change (narrow_band [RtoC 1; Ci; RtoC 2] None (Some 3)) with (narrow_band [RtoC 1; Ci; RtoC 2] (Some (nb_lags 3)) (Some 3)).
      destruct (c33_outcome [RtoC 1; Ci; RtoC 2] (nb_lags 3) 3 ltac:(lia)) as [[_ Q]|[_ (naf' & xi' & Q & _)]]; [congruence|].
      rewrite E. assert (lag = nb_lags 3) by congruence. subst lag. reflexivity.
Qed.
