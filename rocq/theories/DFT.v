(** Scalars on which the models run, and the discrete Fourier transform. *)
From Coq Require Import Reals ZArith List Lia Lra Permutation.
From Coquelicot Require Import Coquelicot.
From Verif Require Import Py Scalars CSum.
Import ListNotations.

(** Operations the column-building code needs.  [NumC] is the instance all
    theorems are about; [NumG] (Gaussian integers) makes the very same model
    executable, for sanity checks by computation. *)
Class Num (T : Type) := {
  nzero : T; nadd : T -> T -> T; nmul : T -> T -> T; nconj : T -> T;
  nre : T -> T;            (* real part *)
  nroot : Z -> Z -> T      (* exp(2 i pi k / n) *)
}.

Global Instance NumC : Num C := {|
  nzero := RtoC 0; nadd := Cplus; nmul := Cmult; nconj := Cconj;
  nre := fun z => RtoC (Re z); nroot := root |}.

Definition G := (Z * Z)%type.
Definition gpow4 (k : Z) : G :=
  match k mod 4 with 0 => (1, 0) | 1 => (0, 1) | 2 => (-1, 0) | _ => (0, -1) end%Z.
Global Instance NumG : Num G := {|
  nzero := (0, 0);
  nadd := fun a b => (fst a + fst b, snd a + snd b);
  nmul := fun a b => (fst a * fst b - snd a * snd b, fst a * snd b + snd a * fst b);
  nconj := fun a => (fst a, - snd a);
  nre := fun a => (fst a, 0);
  nroot := fun n k => gpow4 (k * (4 / n))      (* exact for n = 1, 2, 4 *)
|}%Z.

Definition nsum {T} `{Num T} {A} (l : list A) (f : A -> T) : T :=
  fold_right (fun a s => nadd (f a) s) nzero l.

(** [np.zeros(n)]. *)
Definition zeros {T} `{Num T} (n : Z) : list T := repeat nzero (Z.to_nat n).

(** [np.fft.fft(x)] of a 1-d array (a column), by its defining sum. *)
Definition fft {T} `{Num T} (x : list T) : list T :=
  let n := zlen x in
  map (fun f => nsum (arange 0 n)
                     (fun k => nmul (nth (Z.to_nat k) x nzero) (nroot n (- (f * k)))))
      (arange 0 n).

(** Storing a complex value into an array of real ([true]) or complex dtype:
    numpy discards the imaginary part (with a warning). *)
Definition ncast {T} `{Num T} (real : bool) (v : T) : T := if real then nre v else v.

Example fft_gauss : fft [(1, 2); (3, 4); (5, 6); (7, 8)]%Z
  = [(16, 20); (-8, 0); (-4, -4); (0, -8)]%Z.
Proof. reflexivity. Qed.

Local Open Scope C_scope.

(** Indexing helper for statements: entry [i] of a column. *)
Definition cnth (l : list C) (i : Z) : C := nth (Z.to_nat i) l 0.

Lemma fft_length (x : list C) : length (fft x) = length x.
Proof. unfold fft. rewrite map_length, arange_length. unfold zlen. lia. Qed.

Lemma fft_zlen (x : list C) : zlen (fft x) = zlen x.
Proof. unfold zlen. now rewrite fft_length. Qed.

Lemma nth_map_arange {B} (g : Z -> B) a b k d :
  (0 <= k < b - a)%Z -> nth (Z.to_nat k) (map g (arange a b)) d = g (a + k)%Z.
Proof.
  intros H. rewrite (nth_indep _ d (g 0%Z)) by (rewrite map_length, arange_length; lia).
  rewrite map_nth. f_equal.
  assert (E := nth_error_arange a b (Z.to_nat k)).
  rewrite (nth_error_nth _ _ _ (E ltac:(lia))). lia.
Qed.

Lemma fft_nth (x : list C) f :
  (0 <= f < zlen x)%Z ->
  cnth (fft x) f = csum (arange 0 (zlen x)) (fun k => cnth x k * root (zlen x) (- (f * k))).
Proof.
  intros H. unfold cnth, fft. rewrite nth_map_arange by lia. rewrite Z.add_0_l. reflexivity.
Qed.

(** ** Orthogonality *)
Lemma root_geo n m (k : nat) :
  csum (arange 0 (Z.of_nat k)) (fun f => root n (f * m)) * (1 - root n m)
  = 1 - root n (Z.of_nat k * m).
Proof.
  induction k as [|k IH].
  - cbn [Z.of_nat]. rewrite arange_empty by lia. rewrite csum_nil, Z.mul_0_l, root_0. ring.
  - rewrite Nat2Z.inj_succ. rewrite <- Z.add_1_r, arange_snoc by lia.
    rewrite csum_app, Cmult_plus_distr_r, IH, csum_cons, csum_nil.
    rewrite Z.mul_add_distr_r, Z.mul_1_l, root_plus. ring.
Qed.

Lemma root_orth n m : (0 < n)%Z ->
  csum (arange 0 n) (fun f => root n (f * m)) =
  if (m mod n =? 0)%Z then RtoC (IZR n) else 0.
Proof.
  intros Hn. destruct (Z.eqb_spec (m mod n) 0) as [E|E].
  - apply Z.mod_divide in E; [|lia]. destruct E as [q ->].
    rewrite (csum_ext _ _ (fun _ => 1)).
    + rewrite csum_const, arange_length, Cmult_1_r, INR_IZR_INZ. do 2 f_equal. lia.
    + intros f _. replace (f * (q * n))%Z with (n * (f * q))%Z by ring. apply root_n. lia.
  - assert (H := root_geo n m (Z.to_nat n)). rewrite Z2Nat.id in H by lia.
    rewrite root_n in H by lia.
    assert (Hr : 1 - root n m <> 0).
    { apply Cminus_eq_contra. intros Hr. apply E. apply Z.mod_divide; [lia|].
      apply root_1_inv; auto. }
    replace (1 - 1) with (RtoC 0) in H by ring.
    destruct (Ceq_dec (csum (arange 0 n) (fun f => root n (f * m))) 0) as [|Hne]; auto.
    exfalso. apply (Cmult_neq_0 _ _ Hne Hr H).
Qed.

Lemma root_orth_neg n m : (0 < n)%Z ->
  csum (arange 0 n) (fun f => root n (- (f * m))) =
  if (m mod n =? 0)%Z then RtoC (IZR n) else 0.
Proof.
  intros Hn. rewrite (csum_ext _ _ (fun f => root n (f * (- m)))).
  - rewrite root_orth by auto.
    destruct (Z.eqb_spec (m mod n) 0) as [E|E], (Z.eqb_spec ((- m) mod n) 0) as [E'|E']; auto.
    + exfalso. apply E'. now rewrite Z.mod_opp_l_z by lia.
    + exfalso. apply E. rewrite <- (Z.opp_involutive m), Z.mod_opp_l_z by lia. reflexivity.
  - intros f _. f_equal. ring.
Qed.

(** ** Exponential sums with frequencies taken modulo [n] *)
(** [esum n g ts f] = sum over t in ts of g(t) exp(-2 i pi f t / n). *)
Definition esum (n : Z) (ts : list Z) (g : Z -> C) (f : Z) : C :=
  csum ts (fun t => g t * root n (- (f * t))).

Lemma esum_ext n ts g g' f : (forall t, In t ts -> g t = g' t) -> esum n ts g f = esum n ts g' f.
Proof. intros H. apply csum_ext. intros t Ht. now rewrite H. Qed.

Lemma esum_total n ts g : (0 < n)%Z ->
  csum (arange 0 n) (esum n ts g) =
  RtoC (IZR n) * csum ts (fun t => if (t mod n =? 0)%Z then g t else 0).
Proof.
  intros Hn. unfold esum. rewrite csum_swap, <- csum_scal_l. apply csum_ext. intros t _.
  rewrite csum_scal_l, root_orth_neg by auto. destruct (t mod n =? 0)%Z; ring.
Qed.

(** inversion: sum_f esum(f) exp(2 i pi f s/n) = n sum_{t = s mod n} g t *)
Lemma esum_inv n ts g s : (0 < n)%Z ->
  csum (arange 0 n) (fun f => esum n ts g f * root n (f * s)) =
  RtoC (IZR n) * csum ts (fun t => if ((t - s) mod n =? 0)%Z then g t else 0).
Proof.
  intros Hn. unfold esum.
  rewrite (csum_ext _ _ (fun f => csum ts (fun t => g t * root n (- (f * (t - s)))))).
  - rewrite csum_swap, <- csum_scal_l. apply csum_ext. intros t _.
    rewrite csum_scal_l, root_orth_neg by auto. destruct ((t - s) mod n =? 0)%Z; ring.
  - intros f _. rewrite <- csum_scal_r. apply csum_ext. intros t _.
    rewrite <- Cmult_assoc, <- root_plus. do 2 f_equal. ring.
Qed.

(** Parseval: distinct residues. *)
Lemma esum_parseval n ts g g' : (0 < n)%Z -> NoDup (map (fun t => t mod n)%Z ts) ->
  csum (arange 0 n) (fun f => esum n ts g f * Cconj (esum n ts g' f)) =
  RtoC (IZR n) * csum ts (fun t => g t * Cconj (g' t)).
Proof.
  intros Hn Hd.
  transitivity (csum ts (fun t => csum ts (fun s =>
     g t * Cconj (g' s) * csum (arange 0 n) (fun f => root n (- (f * (t - s))))))).
  - rewrite (csum_ext _ _ (fun f => csum ts (fun t => csum ts (fun s =>
       g t * Cconj (g' s) * root n (- (f * (t - s))))))).
    + rewrite csum_swap. apply csum_ext. intros t _. rewrite csum_swap.
      apply csum_ext. intros s _. now rewrite csum_scal_l.
    + intros f _. unfold esum. rewrite csum_conj, csum_mult.
      apply csum_ext. intros t _. apply csum_ext. intros s _.
      rewrite Cconj_mult, root_conj.
      replace (- (f * (t - s)))%Z with (- (f * t) + - - (f * s))%Z by ring.
      rewrite root_plus. ring.
  - rewrite <- csum_scal_l. apply csum_ext. intros t Ht.
    assert (Hnd : NoDup ts) by (eapply NoDup_map_inv; eauto).
    rewrite (csum_single _ t); auto.
    + rewrite root_orth_neg, Z.sub_diag, Z.mod_0_l by lia. cbn [Z.eqb]. ring.
    + intros s Hs Hne. rewrite root_orth_neg by auto.
      destruct (Z.eqb_spec ((t - s) mod n) 0) as [E|E]; [|ring].
      exfalso. apply Hne.
      assert (Es : (s mod n = t mod n)%Z).
      { apply Z.mod_divide in E; [|lia]. destruct E as [q E].
        replace t with (s + q * n)%Z by lia. now rewrite Z.mod_add by lia. }
      revert Es. clear - Hd Hs Ht Hnd. revert Ht Hs.
      induction ts as [|a l IH]; intros Ht Hs Es; [destruct Ht|].
      cbn in Hd. inversion_clear Hd as [|? ? Hna Hd']. inversion_clear Hnd as [|? ? Hna2 Hnd'].
      destruct Ht as [<-|Ht], Hs as [<-|Hs]; auto.
      * exfalso. apply Hna. rewrite <- Es. now apply (in_map (fun t => t mod n)%Z).
      * exfalso. apply Hna. rewrite Es. now apply (in_map (fun t => t mod n)%Z).
Qed.

(** Energy form of Parseval. *)
Lemma esum_energy n ts g : (0 < n)%Z -> NoDup (map (fun t => t mod n)%Z ts) ->
  (rsum (arange 0 n) (fun f => Cmod (esum n ts g f) ^ 2) = IZR n * rsum ts (fun t => Cmod (g t) ^ 2))%R.
Proof.
  intros Hn Hd. apply RtoC_inj. rewrite RtoC_mult, !RtoC_rsum.
  rewrite (csum_ext _ _ (fun f => esum n ts g f * Cconj (esum n ts g f))).
  - rewrite esum_parseval by auto. f_equal. apply csum_ext. intros. now rewrite Cmod2_conj.
  - intros. now rewrite Cmod2_conj.
Qed.

(** ** Columns written by [tfr[(n + tau) % n] = ...] *)
Definition scatter (n : Z) (ts : list Z) (g : Z -> C) : list C :=
  puts (zeros n) (map (fun t => (((n + t) mod n)%Z, g t)) ts).

Lemma zeros_zlen n : (0 <= n)%Z -> zlen (zeros (T:=C) n) = n.
Proof. intros. unfold zlen, zeros. rewrite repeat_length. lia. Qed.

Lemma scatter_zlen n ts g : (0 <= n)%Z -> zlen (scatter n ts g) = n.
Proof. intros H. unfold scatter, zlen. rewrite puts_length. apply zeros_zlen; auto. Qed.

Lemma mod_add_n n t : (0 < n)%Z -> ((n + t) mod n = t mod n)%Z.
Proof. intros. rewrite Z.add_comm, <- (Z.mul_1_l n) at 1. now rewrite Z.mod_add by lia. Qed.

Lemma cnth_zeros n j : cnth (zeros n) j = 0.
Proof.
  unfold cnth, zeros. cbn [nzero NumC].
  generalize (Z.to_nat n). intros k. revert j. generalize (Z.to_nat) as tn.
  intros tn j. generalize (tn j). clear. induction k as [|k IH]; intros [|m]; cbn; auto.
Qed.

Lemma scatter_nth n ts g j :
  (0 < n)%Z -> NoDup (map (fun t => t mod n)%Z ts) -> (0 <= j < n)%Z ->
  cnth (scatter n ts g) j = csum ts (fun t => if (t mod n =? j)%Z then g t else 0).
Proof.
  intros Hn Hd Hj.
  assert (Hb : forall t, (0 <= (n + t) mod n < n)%Z) by (intros; apply Z.mod_pos_bound; auto).
  destruct (in_dec Z.eq_dec j (map (fun t => t mod n)%Z ts)) as [Hi|Hi].
  - apply in_map_iff in Hi. destruct Hi as [t [Et Ht]].
    assert (Hnd : NoDup ts) by (eapply NoDup_map_inv; eauto).
    rewrite (csum_single _ t); auto.
    + rewrite Et, Z.eqb_refl. unfold cnth, scatter. rewrite <- Et, <- (mod_add_n n t) by auto.
      apply (nth_puts_in (zeros n) (fun t => ((n + t) mod n)%Z) g ts t).
      * intros k _. rewrite zeros_zlen by lia. apply Hb.
      * erewrite map_ext; [exact Hd|]. intros; now apply mod_add_n.
      * auto.
    + intros s Hs Hne. destruct (Z.eqb_spec (s mod n) j) as [E|E]; auto.
      exfalso. apply Hne. clear - Hd Hs Ht E Et.
      induction ts as [|a l IH]; [destruct Ht|].
      cbn in Hd. inversion_clear Hd as [|? ? Hna Hd'].
      destruct Ht as [<-|Ht], Hs as [<-|Hs]; auto.
      * exfalso. apply Hna. rewrite Et, <- E. now apply (in_map (fun t => t mod n)%Z).
      * exfalso. apply Hna. rewrite E, <- Et. now apply (in_map (fun t => t mod n)%Z).
  - rewrite csum_0.
    + unfold cnth, scatter. rewrite nth_puts_out; [apply (cnth_zeros n j)|lia|].
      intros i v Hv. apply in_map_iff in Hv. destruct Hv as [t [[= <- <-] Ht]].
      split; [apply Hb|]. rewrite mod_add_n by auto. intros <-. apply Hi.
      now apply (in_map (fun t => t mod n)%Z).
    + intros t Ht. destruct (Z.eqb_spec (t mod n) j) as [E|E]; auto.
      exfalso. apply Hi. rewrite <- E. now apply (in_map (fun t => t mod n)%Z).
Qed.

Lemma scatter_fft n ts g f :
  (0 < n)%Z -> NoDup (map (fun t => t mod n)%Z ts) -> (0 <= f < n)%Z ->
  cnth (fft (scatter n ts g)) f = esum n ts g f.
Proof.
  intros Hn Hd Hf. rewrite fft_nth by (rewrite scatter_zlen; lia).
  rewrite scatter_zlen by lia. unfold esum.
  rewrite (csum_ext _ _ (fun k => csum ts (fun t =>
     (if (t mod n =? k)%Z then g t else 0) * root n (- (f * k))))).
  - rewrite csum_swap. apply csum_ext. intros t Ht.
    rewrite (csum_single _ (t mod n)%Z).
    + rewrite Z.eqb_refl. f_equal.
      replace (- (f * (t mod n)))%Z with ((- f) * (t mod n))%Z by ring.
      rewrite root_mod_mul_r by lia. f_equal. ring.
    + apply NoDup_arange.
    + apply in_arange. apply Z.mod_pos_bound. auto.
    + intros k _ Hne. destruct (Z.eqb_spec (t mod n) k); [congruence|ring].
  - intros k Hk. apply in_arange in Hk. rewrite scatter_nth by auto. now rewrite csum_scal_r.
Qed.

(** Distinct residues for ranges shorter than [n]. *)
Lemma NoDup_mod_arange n a b : (0 < n)%Z -> (b - a <= n)%Z ->
  NoDup (map (fun t => t mod n)%Z (arange a b)).
Proof.
  intros Hn H. apply NoDup_map_inj; [|apply NoDup_arange].
  intros x y Hx Hy E. apply in_arange in Hx, Hy.
  assert (E' : ((x - y) mod n = 0)%Z).
  { rewrite Zminus_mod, E, Z.sub_diag. apply Z.mod_0_l. lia. }
  apply Z.mod_divide in E'; [|lia]. destruct E' as [q E'].
  assert (q = 0)%Z by nia. subst. lia.
Qed.

(** ** Colliding indices: the last write to each residue class survives *)
Fixpoint lastdup (n : Z) (ts : list Z) : list Z :=
  match ts with
  | [] => []
  | t :: l => if existsb (fun s => (s mod n =? t mod n)%Z) l then lastdup n l
              else t :: lastdup n l
  end.

Lemma lastdup_in n ts t : In t (lastdup n ts) -> In t ts.
Proof.
  induction ts as [|a l IH]; cbn; auto. destruct existsb; cbn; intuition.
Qed.

Lemma lastdup_mod n ts r :
  In r (map (fun t => t mod n)%Z (lastdup n ts)) <-> In r (map (fun t => t mod n)%Z ts).
Proof.
  induction ts as [|a l IH]; cbn; [tauto|].
  destruct (existsb (fun s => (s mod n =? a mod n)%Z) l) eqn:E; cbn; rewrite IH; [|tauto].
  split; [tauto|]. intros [<-|H]; auto.
  apply existsb_exists in E. destruct E as [s [Hs E]]. apply Z.eqb_eq in E.
  rewrite <- E. now apply (in_map (fun t => t mod n)%Z).
Qed.

Lemma lastdup_NoDup n ts : NoDup (map (fun t => t mod n)%Z (lastdup n ts)).
Proof.
  induction ts as [|a l IH]; cbn; [constructor|].
  destruct (existsb (fun s => (s mod n =? a mod n)%Z) l) eqn:E; auto.
  cbn. constructor; auto. rewrite lastdup_mod, in_map_iff. intros [s [Hs Hi]].
  assert (existsb (fun s => (s mod n =? a mod n)%Z) l = true); [|congruence].
  apply existsb_exists. exists s. split; auto. apply Z.eqb_eq; auto.
Qed.

Lemma lastdup_id n ts : NoDup (map (fun t => t mod n)%Z ts) -> lastdup n ts = ts.
Proof.
  induction ts as [|a l IH]; cbn; auto. intros H. inversion_clear H as [|? ? Hn Hd].
  rewrite IH by auto.
  destruct (existsb (fun s => (s mod n =? a mod n)%Z) l) eqn:E; auto.
  exfalso. apply Hn. apply existsb_exists in E. destruct E as [s [Hs E]]. apply Z.eqb_eq in E.
  rewrite <- E. now apply (in_map (fun t => t mod n)%Z).
Qed.

Lemma upd_upd {A} (l : list A) k v w : upd (upd l k v) k w = upd l k w.
Proof. revert k. induction l as [|a l IH]; intros [|k]; cbn; auto. now rewrite IH. Qed.

Lemma upd_comm {A} (l : list A) k j v w : k <> j -> upd (upd l k v) j w = upd (upd l j w) k v.
Proof.
  revert k j. induction l as [|a l IH]; intros [|k] [|j] H; cbn; auto; [congruence|].
  rewrite IH; auto.
Qed.

Lemma puts_overwritten {A} (l : list A) k v ivs :
  (exists w, In (Z.of_nat k, w) ivs) -> puts (upd l k v) ivs = puts l ivs.
Proof.
  revert l. induction ivs as [|[i u] ivs IH]; intros l [w Hw]; [destruct Hw|]. cbn.
  destruct (Nat.eq_dec (Z.to_nat i) k) as [E|E].
  - rewrite E, upd_upd. reflexivity.
  - rewrite upd_comm by auto. apply IH. destruct Hw as [Hw|Hw]; [|eauto].
    exfalso. apply E. injection Hw as -> _. lia.
Qed.

Lemma puts_lastdup n ts g (l : list C) : (0 < n)%Z ->
  puts l (map (fun t => (((n + t) mod n)%Z, g t)) ts) =
  puts l (map (fun t => (((n + t) mod n)%Z, g t)) (lastdup n ts)).
Proof.
  intros Hn. revert l. induction ts as [|a ts IH]; intros l; cbn; auto.
  destruct (existsb (fun s => (s mod n =? a mod n)%Z) ts) eqn:E; cbn; [|apply IH].
  rewrite <- IH. apply puts_overwritten.
  apply existsb_exists in E. destruct E as [s [Hs E]]. apply Z.eqb_eq in E.
  exists (g s). rewrite Z2Nat.id by (apply Z.mod_pos_bound; auto).
  apply in_map_iff. exists s. split; auto. rewrite !mod_add_n by auto. now rewrite E.
Qed.

Lemma scatter_lastdup n ts g : (0 < n)%Z -> scatter n ts g = scatter n (lastdup n ts) g.
Proof. intros. apply puts_lastdup; auto. Qed.

Lemma scatter_fft_gen n ts g f : (0 < n)%Z -> (0 <= f < n)%Z ->
  cnth (fft (scatter n ts g)) f = esum n (lastdup n ts) g f.
Proof.
  intros. rewrite scatter_lastdup by auto. apply scatter_fft; auto. apply lastdup_NoDup.
Qed.

Lemma esum_mod n ts g f : (0 < n)%Z -> esum n ts g (f mod n) = esum n ts g f.
Proof.
  intros. unfold esum. apply csum_ext. intros t _. f_equal.
  replace (- (f mod n * t))%Z with ((f mod n) * (- t))%Z by ring.
  rewrite root_mod_mul_l by lia. f_equal. ring.
Qed.
