(** C42-C46: Renyi information, ideal representation, Friedman density, ridges. *)
From Coq Require Import Reals ZArith List Lia Lra Bool Sorted Permutation.
From Coquelicot Require Import Coquelicot.
From Flocq Require Import Core.
From Verif Require Import Py Scalars CSum DFT Spec M_base M_putils M_reas M_post P_base T_putils T_reas T_post.
Import ListNotations.
Local Open Scope Z_scope.

(** *** C42 *)
Definition scale_mat (c : R) (m : list (list R)) : list (list R) := map (map (Rmult c)) m.

Lemma get_map {A B} (f : A -> B) l i : get (map f l) i = (a <- get l i ;; Ok (f a)).
Proof.
  unfold get. rewrite zlen_map. destruct (pyidx (zlen l) i) as [k|]; [|reflexivity]. rewrite nth_error_map. destruct (nth_error l (Z.to_nat k)); reflexivity.
Qed.
Lemma mapM_bind_map {A B D} (f : A -> res B) (g : B -> D) l : mapM (fun a => b <- f a ;; Ok (g b)) l = (bs <- mapM f l ;; Ok (map g bs)).
Proof.
  induction l as [|a l IH]; [reflexivity|]. cbn [mapM]. destruct (f a); [|reflexivity]. cbn [bind]. rewrite IH. destruct (mapM f l); reflexivity.
Qed.
Lemma zipw_map_both {A A' B B' D D'} (f : A -> B -> D) (f' : A' -> B' -> D') (g : A -> A') (h : B -> B') (k : D -> D') a b :
  (forall x y, f' (g x) (h y) = k (f x y)) -> zipw f' (map g a) (map h b) = map k (zipw f a b).
Proof. intros H. revert b. induction a as [|x a IH]; intros [|y b]; cbn; auto. now rewrite H, IH. Qed.
Lemma bcast_map_both {A A' B B' D D'} (f : A -> B -> D) (f' : A' -> B' -> D') (g : A -> A') (h : B -> B') (k : D -> D') a b :
  (forall x y, f' (g x) (h y) = k (f x y)) -> bcast f' (map g a) (map h b) = (r <- bcast f a b ;; Ok (map k r)).
Proof.
  intros H. unfold bcast. rewrite !map_length. destruct (length a =? length b)%nat.
  - cbn [bind]. now rewrite (zipw_map_both f f' g h k).
  - assert (M1 : forall x l, map (f' (g x)) (map h l) = map k (map (f x) l)) by (intros; rewrite !map_map; apply map_ext; intros; apply H).
    assert (M2 : forall y l, map (fun x => f' x (h y)) (map g l) = map k (map (fun x => f x y) l)) by (intros; rewrite !map_map; apply map_ext; intros; apply H).
    destruct a as [|x [|x' a]]; destruct b as [|y [|y' b]]; cbn [map bind]; try reflexivity;
      try (f_equal; apply (M1 x (y :: y' :: b))); try (f_equal; apply (M1 x [])); try (f_equal; apply (M1 x [y]));
      try (f_equal; apply (M2 y (x :: x' :: a))); try (f_equal; apply (M2 y [])); try (f_equal; apply (M2 y [x])).
Qed.
Lemma rsum_map_scal c l : rsum (map (Rmult c) l) (fun v => v) = (c * rsum l (fun v => v))%R.
Proof. rewrite (rsum_map (Rmult c) l (fun v => v)). apply rsum_scal_l. Qed.

Lemma integrate_scale c mat n x y : integrate_2d (scale_mat c mat) n x y = (v <- integrate_2d mat n x y ;; Ok (c * v)%R).
Proof.
  unfold integrate_2d, scale_mat. rewrite zlen_map. set (X := match x with Some x => x | None => _ end). set (Y := match y with Some y => y | None => _ end).
  rewrite !mapM_map.
  rewrite (mapM_ext _ (fun r => b <- get r 0 ;; Ok (c * b)%R)) by (intros; apply get_map). rewrite mapM_bind_map.
  destruct (mapM (fun r => get r 0) mat) as [c0|]; [|reflexivity]. cbn [bind].
  rewrite (mapM_ext _ (fun r => b <- get r (n - 1) ;; Ok (c * b)%R)) by (intros; apply get_map). rewrite mapM_bind_map.
  destruct (mapM (fun r => get r (n - 1)) mat) as [c1|]; [|reflexivity]. cbn [bind].
  destruct (get X 1) as [x1|]; [|reflexivity]. cbn [bind]. destruct (get X 0) as [x0|]; [|reflexivity]. cbn [bind].
  assert (Ecm : combine (map (Rmult c) c0) (map (Rmult c) c1) = map (fun ab => (c * fst ab, c * snd ab)%R) (combine c0 c1)).
  { clear. revert c1. induction c0 as [|a c0 IH]; intros [|b c1]; cbn; auto. now rewrite IH. }
  rewrite Ecm.
  set (f := fun (r : list R) (ab : R * R) => ((rsum r (fun v => v) - fst ab / 2 - snd ab / 2) * (x1 - x0))%R).
  rewrite (zipw_map_both f f (map (Rmult c)) (fun ab => (c * fst ab, c * snd ab)%R) (Rmult c)).
  2:{ intros r ab. unfold f. cbn [fst snd]. rewrite rsum_map_scal. unfold Rdiv. ring. }
  set (s := zipw f mat (combine c0 c1)).
  assert (E1 : prefix (map (Rmult c) s) (zlen mat - 1) = map (Rmult c) (prefix s (zlen mat - 1))) by (unfold prefix; apply firstn_map).
  assert (E2 : tl1 (map (Rmult c) s) = map (Rmult c) (tl1 s)) by (destruct s; reflexivity). rewrite E1, E2.
  rewrite (bcast_map_both Rplus Rplus (Rmult c) (Rmult c) (Rmult c)) by (intros; ring).
  destruct (bcast Rplus (prefix s (zlen mat - 1)) (tl1 s)) as [dm|]; [|reflexivity]. cbn [bind].
  destruct (bcast Rminus (tl1 Y) (prefix Y (zlen mat - 1))) as [d|]; [|reflexivity]. cbn [bind].
  rewrite <- (map_id (map (fun v => (v / 2)%R) d)). rewrite (bcast_map_both Rmult Rmult (Rmult c) (fun v => v) (Rmult c)) by (intros; ring).
  rewrite map_id. destruct (bcast Rmult dm (map (fun v => (v / 2)%R) d)) as [p|]; [|reflexivity]. cbn [bind]. now rewrite rsum_map_scal.
Qed.

Lemma renyi_value_scale c tfr n ts freq alpha : c <> 0%R -> renyi_value (scale_mat c tfr) n ts freq alpha = renyi_value tfr n ts freq alpha.
Proof.
  intros Hc. unfold renyi_value. rewrite integrate_scale. destruct (integrate_2d tfr n (Some ts) (Some freq)) as [i|]; [|reflexivity]. cbn [bind].
  destruct (Req_EM_T i 0) as [E|E]; destruct (Req_EM_T (c * i) 0) as [E'|E']; try reflexivity.
  - subst i. exfalso. apply E'. ring.
  - exfalso. apply Rmult_integral in E'. tauto.
  - assert (Ep : map (map (fun v => (v / (c * i))%R)) (scale_mat c tfr) = map (map (fun v => (v / i)%R)) tfr).
    { unfold scale_mat. rewrite map_map. apply map_ext. intros r. rewrite map_map. apply map_ext. intros v. field. auto. }
    now rewrite Ep.
Qed.

Lemma fold_Rmin_scale c l a : (0 < c)%R -> fold_left Rmin (map (Rmult c) l) (c * a)%R = (c * fold_left Rmin l a)%R.
Proof.
  intros Hc. revert a. induction l as [|b l IH]; intros a; cbn; auto. rewrite <- IH. f_equal.
  unfold Rmin. destruct (Rle_dec a b), (Rle_dec (c * a) (c * b)); auto; exfalso; nra.
Qed.

(** Scale invariance, effects on the arguments included. *)
Lemma c42_scale : forall c tfr n ts freq alpha, (0 < c)%R -> renyi (scale_mat c tfr) n ts freq alpha = renyi tfr n ts freq alpha.
Proof.
  intros c tfr n ts freq alpha Hc. unfold renyi.
  assert (Ez : zlen (scale_mat c tfr) = zlen tfr) by apply zlen_map. rewrite Ez.
  assert (Hcc : concat (scale_mat c tfr) = map (Rmult c) (concat tfr)) by (unfold scale_mat; now rewrite concat_map). rewrite Hcc.
  assert (En : (if Req_EM_T alpha 1 then match map (Rmult c) (concat tfr) with [] => Some ValueError | a :: l => if Rlt_dec (fold_left Rmin l a) 0 then Some ValueError else None end else None)
     = (if Req_EM_T alpha 1 then match concat tfr with [] => Some ValueError | a :: l => if Rlt_dec (fold_left Rmin l a) 0 then Some ValueError else None end else None)).
  { destruct (Req_EM_T alpha 1); auto. destruct (concat tfr) as [|a l]; auto. cbn [map]. rewrite fold_Rmin_scale by auto.
    destruct (Rlt_dec (c * fold_left Rmin l a) 0), (Rlt_dec (fold_left Rmin l a) 0); auto; exfalso; nra. }
  rewrite En. match goal with |- match ?X with _ => _ end = _ => destruct X end; [reflexivity|]. cbv zeta.
  destruct ts as [t|].
  - destruct (allclose t n) as [[|]|]; [| |reflexivity]; now rewrite renyi_value_scale by lra.
  - now rewrite renyi_value_scale by lra.
Qed.
(** For an order other than 1 the sign is irrelevant too. *)
Lemma c42_scale_neg : forall c tfr n ts freq alpha, c <> 0%R -> alpha <> 1%R -> renyi (scale_mat c tfr) n ts freq alpha = renyi tfr n ts freq alpha.
Proof.
  intros c tfr n ts freq alpha Hc Ha. unfold renyi. destruct (Req_EM_T alpha 1); [tauto|]. cbv zeta.
  assert (Ez : zlen (scale_mat c tfr) = zlen tfr) by apply zlen_map. rewrite Ez.
  destruct ts as [t|].
  - destruct (allclose t n) as [[|]|]; [| |reflexivity]; now rewrite renyi_value_scale by auto.
  - now rewrite renyi_value_scale by auto.
Qed.

(** A flat distribution over an area A, integer order k >= 2: log2(A^(1-k) + eps)/(1-k),
    which is log2 A but for the added eps = 2^-52. *)
Lemma map_repeat {A B} (f : A -> B) a k : map f (repeat a k) = repeat (f a) k.
Proof. induction k; cbn; congruence. Qed.
Lemma all_some_Some {A} (l : list A) : all_some (map Some l) = Some l.
Proof. induction l as [|a l IH]; cbn; auto. now rewrite IH. Qed.
Lemma c42_flat : forall v m n ts freq A k, v <> 0%R -> A <> 0%R -> 2 <= k ->
  integrate_2d (repeat (repeat 1%R n) m) (Z.of_nat n) (Some ts) (Some freq) = Ok A -> (0 < A)%R ->
  renyi_value (repeat (repeat v n) m) (Z.of_nat n) ts freq (IZR k) =
  Ok (Some (ln (/ A ^ Z.to_nat (k - 1) + spacing1) / ln 2 / (1 - IZR k))%R).
Proof.
  intros v m n ts freq A k Hv HA Hk HI HA0.
  assert (E : repeat (repeat v n) m = scale_mat v (repeat (repeat 1%R n) m)).
  { unfold scale_mat. rewrite !map_repeat. now rewrite Rmult_1_r. }
  rewrite E, renyi_value_scale by auto. unfold renyi_value. rewrite HI. cbn [bind]. destruct (Req_EM_T A 0); [tauto|].
  destruct (Req_EM_T (IZR k) 1) as [Q|_]. { apply eq_IZR in Q. lia. }
  set (q := (/ A ^ Z.to_nat k)%R).
  assert (E2 : map (map (fun v => npow v (IZR k))) (map (map (fun v => (v / A)%R)) (repeat (repeat 1%R n) m)) = map (map Some) (scale_mat q (repeat (repeat 1%R n) m))).
  { unfold scale_mat. rewrite !map_map, !map_repeat. do 2 f_equal. unfold npow. rewrite Zfloor_IZR.
    destruct (Req_EM_T (IZR k) (IZR k)); [|tauto]. rewrite (proj2 (Z.leb_le 0 k)) by lia. f_equal. unfold q, Rdiv. rewrite Rmult_1_l, Rmult_1_r. apply pow_inv. }
  rewrite E2. unfold integrate_o. rewrite map_map.
  rewrite (map_ext _ Some) by (intros r; apply all_some_Some).
  rewrite all_some_Some, integrate_scale, HI. cbn [bind opt_map]. unfold nlog2.
  assert (Eq : (q * A = / A ^ Z.to_nat (k - 1))%R).
  { unfold q. replace (Z.to_nat k) with (S (Z.to_nat (k - 1))) by lia. cbn [pow]. field. split; auto. now apply pow_nonzero. }
  rewrite Eq. destruct (Rlt_dec 0 _) as [|N]; [reflexivity|]. exfalso. apply N. unfold spacing1.
  assert (0 < / A ^ Z.to_nat (k - 1))%R by (apply Rinv_0_lt_compat; now apply pow_lt). assert (0 < / 2 ^ 52)%R by (apply Rinv_0_lt_compat, pow_lt; lra). lra.
Qed.

(** A 2x2 flat distribution over [0,2]x[0,1], order 3. *)
Example c42_example : renyi_value [[5; 5]; [5; 5]]%R 2 [0; 2]%R [0; 1]%R (IZR 3) = Ok (Some (ln (/ 2 ^ 2 + spacing1) / ln 2 / (1 - IZR 3))%R).
Proof.
  apply (c42_flat 5 2 2 [0; 2]%R [0; 1]%R 2 3); try lra; try lia. vm_compute integrate_2d. cbn. f_equal. lra.
Qed.

(** *** C43 *)
Lemma c43_effects : forall tfr n t f alpha, (alpha <> 1%R \/ (concat tfr <> [] /\ forall v, In v (concat tfr) -> (0 <= v)%R)) ->
  let '(_, ts', freq') := renyi tfr n (Some t) (Some f) alpha in
  (allclose t n = Ok true -> ts' = Some (map (fun v => v + 1)%R t) /\ freq' = Some (rsort f)) /\
  (allclose t n = Ok false -> ts' = Some t /\ freq' = Some (rsort f)).
Proof.
  intros tfr n t f alpha Ha. unfold renyi.
  assert (En : (if Req_EM_T alpha 1 then match concat tfr with [] => Some ValueError | a :: l => if Rlt_dec (fold_left Rmin l a) 0 then Some ValueError else None end else None) = None).
  { destruct (Req_EM_T alpha 1); auto. destruct Ha as [Ha|[Hne Hp]]; [tauto|]. destruct (concat tfr) as [|a l]; [tauto|].
    destruct (Rlt_dec (fold_left Rmin l a) 0) as [L|]; auto. exfalso.
    assert (Q : (0 <= fold_left Rmin l a)%R); [|lra]. assert (P0 := Hp a (or_introl eq_refl)). assert (Pl : forall v, In v l -> (0 <= v)%R) by (intros; apply Hp; now right).
    clear -P0 Pl. revert a P0. induction l as [|b l IH]; intros a P0; cbn; auto. apply IH; [intros; apply Pl; now right|]. apply Rmin_glb; auto. apply Pl. now left. }
  rewrite En. cbv zeta. destruct (allclose t n) as [[|]|]; split; intros Q; try discriminate; auto.
Qed.

Lemma rinsert_perm a l : Permutation (a :: l) (rinsert a l).
Proof. induction l as [|b l IH]; cbn; auto. destruct (Rle_dec a b); auto. eapply perm_trans; [apply perm_swap|]. now constructor. Qed.
Lemma rsort_perm l : Permutation l (rsort l).
Proof. induction l as [|a l IH]; cbn; auto. eapply perm_trans; [|apply rinsert_perm]. now constructor. Qed.
Lemma rinsert_sorted a l : Sorted Rle l -> Sorted Rle (rinsert a l).
Proof.
  induction l as [|b l IH]; intros H; cbn; auto. inversion H; subst. destruct (Rle_dec a b); [constructor; auto|].
  constructor; auto. destruct l as [|c l]; cbn; [constructor; lra|]. destruct (Rle_dec a c); constructor; [lra|]. inversion H3; subst; auto.
Qed.
Lemma rsort_sorted l : Sorted Rle (rsort l).
Proof. induction l; cbn; auto. now apply rinsert_sorted. Qed.
Lemma rsort_id l : Sorted Rle l -> rsort l = l.
Proof.
  induction l as [|a l IH]; intros H; [reflexivity|]. change (rsort (a :: l)) with (rinsert a (rsort l)). inversion H; subst. rewrite IH by auto. destruct l as [|b l]; cbn; auto. inversion H3; subst. destruct (Rle_dec a b); [auto|lra].
Qed.

Lemma rsort_idem l : rsort (rsort l) = rsort l.
Proof. apply rsort_id, rsort_sorted. Qed.
Lemma allclose_iff t n : zlen t = n -> 0 <= n -> exists b, allclose t n = Ok b /\
  (b = true <-> forall k, 0 <= k < n -> (Rabs (rnth t k - IZR k) <= 1 / 10 ^ 8 + 1 / 10 ^ 5 * IZR k)%R).
Proof.
  intros Ht Hn. assert (EL : zlen t = zlen (map IZR (arange 0 n))) by (rewrite zlen_map, arange_zlen; lia).
  unfold allclose. rewrite bcast_same by exact EL. cbn [bind]. eexists. split; [reflexivity|].
  rewrite forallb_forall. split.
  - intros Q k Hk. assert (Hin : In (close (rnth t k) (IZR k)) (zipw close t (map IZR (arange 0 n)))).
    { assert (E : nth (Z.to_nat k) (zipw close t (map IZR (arange 0 n))) false = close (rnth t k) (IZR k)).
      { rewrite (nth_zipw _ _ _ _ 0%R 0%R false); [|unfold zlen in Ht; lia|rewrite map_length, arange_length; lia]. now rewrite nth_map_arange by lia. }
      rewrite <- E. apply nth_In. assert (Z := zipw_zlen close t (map IZR (arange 0 n)) EL). unfold zlen in *. lia. }
    apply Q in Hin. unfold close in Hin. destruct (Rle_dec _ _) as [L|]; [|discriminate]. rewrite (Rabs_right (IZR k)) in L by (apply Rle_ge, IZR_le; lia). exact L.
  - intros Q b Hb. apply (In_nth _ _ false) in Hb. destruct Hb as (k & Hk & <-).
    assert (Z := zipw_zlen close t (map IZR (arange 0 n)) EL).
    rewrite (nth_zipw _ _ _ _ 0%R 0%R false); [|unfold zlen in *; lia|rewrite map_length, arange_length; unfold zlen in *; lia].
    rewrite <- (Nat2Z.id k). rewrite nth_map_arange by (unfold zlen in *; lia). fold (rnth t (Z.of_nat k)). unfold close. destruct (Rle_dec _ _) as [|N]; auto. exfalso. apply N.
    rewrite Z.add_0_l. rewrite (Rabs_right (IZR (Z.of_nat k))) by (apply Rle_ge, IZR_le; lia). apply Q. unfold zlen in *. lia.
Qed.

(** The frequency axis comes back sorted: unchanged exactly if it was sorted; the
    time axis comes back incremented exactly if it was (nearly) 0, 1, ..., n-1. *)
Lemma c43_unchanged_iff : forall tfr n t f alpha r t' f', 1 <= n -> alpha <> 1%R -> zlen t = n ->
  renyi tfr n (Some t) (Some f) alpha = (r, Some t', Some f') ->
  (f' = f <-> Sorted Rle f) /\ Permutation f f' /\ Sorted Rle f' /\
  (t' = t <-> ~ forall k, 0 <= k < n -> (Rabs (rnth t k - IZR k) <= 1 / 10 ^ 8 + 1 / 10 ^ 5 * IZR k)%R).
Proof.
  intros tfr n t f alpha r t' f' Hn Ha Ht H.
  assert (HE := c43_effects tfr n t f alpha (or_introl Ha)). rewrite H in HE. destruct HE as [ET EF].
  assert (AC : exists b, allclose t n = Ok b /\ (b = true <-> forall k, 0 <= k < n -> (Rabs (rnth t k - IZR k) <= 1 / 10 ^ 8 + 1 / 10 ^ 5 * IZR k)%R)).
  { apply allclose_iff; lia. }
  destruct AC as (b & Eb & Hb).
  assert (Ff : f' = rsort f) by (destruct b; [destruct (ET Eb)|destruct (EF Eb)]; congruence).
  split; [|split; [|split]].
  - rewrite Ff. split; intros Q; [rewrite <- Q; apply rsort_sorted|now apply rsort_id].
  - rewrite Ff. apply rsort_perm.
  - rewrite Ff. apply rsort_sorted.
  - destruct b.
    + destruct (ET Eb) as [Et _]. split; intros Q.
      * exfalso. assert (Et' : t' = map (fun v => (v + 1)%R) t) by congruence. destruct t as [|a t0]; [unfold zlen in Ht; cbn in Ht; lia|]. cbn [map] in Et'. rewrite Et' in Q. injection Q. lra.
      * exfalso. apply Q. now apply Hb.
    + destruct (EF Eb) as [Et _]. split; intros Q; [|congruence]. intros P. apply Hb in P. discriminate.
Qed.

(** Calling again with the same (now modified) arrays gives the same result and
    modifies nothing further. *)
Lemma c43_second_call : forall tfr n t f alpha v t' f', 1 <= n -> zlen t = n ->
  renyi tfr n (Some t) (Some f) alpha = (Ok v, Some t', Some f') ->
  renyi tfr n (Some t') (Some f') alpha = (Ok v, Some t', Some f').
Proof.
  intros tfr n t f alpha v t' f' Hn Ht. unfold renyi. cbv zeta.
  match goal with |- match ?X with _ => _ end = _ -> _ => destruct X end; [intros H; discriminate|].
  destruct (allclose_iff t n Ht ltac:(lia)) as (b & Eb & Hb). rewrite Eb.
  destruct b; intros H; injection H as Hv <- <-; rewrite <- Hv.
  - destruct (allclose_iff (map (fun v => v + 1)%R t) n) as (b2 & Eb2 & Hb2); [now rewrite zlen_map|lia|]. rewrite Eb2, rsort_idem.
    destruct b2; [|reflexivity]. exfalso.
    assert (P := proj1 Hb eq_refl 0 ltac:(lia)). assert (P2 := proj1 Hb2 eq_refl 0 ltac:(lia)).
    destruct t as [|a t]; [unfold zlen in Ht; cbn in Ht; lia|]. cbn [map rnth] in P2. change (rnth (a :: t) 0) with a in P. change (rnth (_ :: map _ t) 0) with (a + 1)%R in P2.
    rewrite Rmult_0_r, Rplus_0_r in P, P2. unfold Rabs in P, P2. destruct (Rcase_abs _) in P; destruct (Rcase_abs _) in P2; lra.
  - rewrite Eb, rsort_idem. reflexivity.
Qed.

(** The arrays a representation object returns from run() are its own
    attributes: after a call on them (default timestamps, order other than 1)
    the object's timestamps are 1..N, whatever the matrix. *)
Definition ts_reals (t : tsarr) : list R := match t with TsI l => map IZR l | TsF l => l end.
Lemma c43_object : forall sig n win mat alpha, 1 <= zlen sig -> alpha <> 1%R ->
  let o := base_init sig None n win in
  let '(_, ts', freq') := renyi mat (zlen sig) (Some (ts_reals (r_ts o))) (Some (r_freqs o)) alpha in
  ts' = Some (map IZR (arange 1 (zlen sig + 1))) /\ freq' = Some (rsort (r_freqs o)).
Proof.
  intros sig n win mat alpha Hs Ha o.
  assert (HE := c43_effects mat (zlen sig) (ts_reals (r_ts o)) (r_freqs o) alpha (or_introl Ha)).
  destruct (renyi mat _ _ _ _) as [[r ts'] freq']. destruct HE as [HE _].
  assert (E : ts_reals (r_ts o) = map IZR (arange 0 (zlen sig))) by reflexivity. rewrite E in HE.
  destruct HE as [-> ->].
  - destruct (allclose_iff (map IZR (arange 0 (zlen sig))) (zlen sig)) as (b & Eb & Hb); [rewrite zlen_map, arange_zlen; lia|lia|].
    rewrite Eb. f_equal. apply Hb. intros k Hk. unfold rnth. rewrite nth_map_arange by lia. rewrite Z.add_0_l, Rminus_eq_0, Rabs_R0.
    assert (0 <= IZR k)%R by (apply IZR_le; lia). lra.
  - split; auto. f_equal. rewrite map_map. replace (arange 1 (zlen sig + 1)) with (map (fun k => k + 1) (arange 0 (zlen sig))).
    + rewrite map_map. apply map_ext. intros k. now rewrite plus_IZR.
    + now rewrite <- arange_shift.
Qed.

(** Both arguments changed by one call: a 2x2 distribution, timestamps 0, 1 and
    an unsorted frequency axis. *)
Lemma c43_refuted : exists tfr n t f alpha r t' f', renyi tfr n (Some t) (Some f) alpha = (Ok (Some r), Some t', Some f') /\ t' <> t /\ f' <> f.
Proof.
  exists [[5; 5]; [5; 5]]%R, 2, [0; 1]%R, [1; 0]%R, (IZR 3).
  assert (Ha : IZR 3 <> 1%R) by (intros Q; apply eq_IZR in Q; discriminate).
  assert (HE := c43_effects [[5; 5]; [5; 5]]%R 2 [0; 1]%R [1; 0]%R (IZR 3) (or_introl Ha)).
  assert (HA : allclose [0; 1]%R 2 = Ok true).
  { destruct (allclose_iff [0; 1]%R 2 eq_refl ltac:(lia)) as (b & Eb & Hb). rewrite Eb. f_equal. apply Hb. intros k Hk.
    assert (Q : k = 0 \/ k = 1) by lia. destruct Q as [->| ->]; unfold rnth; cbn [nth Z.to_nat Pos.to_nat Pos.iter_op Nat.add]; rewrite Rminus_eq_0, Rabs_R0; lra. }
  assert (HF : rsort [1; 0]%R = [0; 1]%R). { cbn. destruct (Rle_dec 1 0); [lra|reflexivity]. }
  unfold renyi. destruct (Req_EM_T (IZR 3) 1); [tauto|]. rewrite HA. cbv zeta. rewrite HF.
  replace (map (fun v => (v + 1)%R) [0; 1]%R) with [1; 2]%R by (cbn; repeat f_equal; lra).
  assert (HI : integrate_2d (repeat (repeat 1%R 2) 2) (Z.of_nat 2) (Some [1; 2]%R) (Some [0; 1]%R) = Ok 1%R).
  { vm_compute integrate_2d. cbn. f_equal. lra. }
  pose proof (c42_flat 5 2 2 [1; 2]%R [0; 1]%R 1 3 ltac:(lra) ltac:(lra) ltac:(lia) HI ltac:(lra)) as E.
  change (repeat (repeat 5%R 2) 2) with [[5; 5]; [5; 5]]%R in E. change (Z.of_nat 2) with 2 in E. rewrite E.
  do 3 eexists. split; [reflexivity|]. split; intros Q; injection Q; lra.
Qed.
