(** C121: results that [run] has handed out. *)
From Coq Require Import Reals ZArith List Lia Lra Bool.
From Coquelicot Require Import Coquelicot.
From Verif Require Import Py Scalars CSum DFT Spec M_base M_stft M_cohen M_state M_heap M_utils.
From Verif Require Import P_base P_stft P_wvd P_pwvd T_utils P_spec T_state T_mh T_plot.
Import ListNotations.
Local Open Scope Z_scope.

(** Reachable states: histories of [run] and [plot] on a new object. *)
Definition reachable (k : cls) (s : st) : Prop := exists x ts n w ps, history k ps (create x ts n w) = Some s.

(** *** Agreement of the two models of [run] *)
Definition value_run (k : cls) (o : rep C) : option (res (rep C)) :=
  match k with
  | KStft => Some (stft_run o) | KWvd => Some (wvd_run o) | KPwvd => Some (p <- pwvd_run o ;; Ok (fst p))
  | KMh => Some (mh_run o) | KPage => Some (page_run o) | KPmh => Some (pmh_run o)
  | KSpec => None
  end.
Lemma loop_length ps cols : length (fst (loop ps cols)) = length cols.
Proof.
  revert cols. induction ps as [|p ps IH]; intros [|c cs]; cbn [loop]; auto. destruct (p c) as [c' [| |]]; try reflexivity. specialize (IH cs). destruct (loop ps cs). cbn [fst length] in *. now rewrite IH.
Qed.
Lemma upd_nth {A} (l : list A) k v d : (k < length l)%nat -> nth k (upd l k v) d = v.
Proof. revert k. induction l as [|a l IH]; intros [|k] H; cbn in *; try lia; auto. apply IH. lia. Qed.
Lemma upd_other {A} (l : list A) k j v d : j <> k -> nth j (upd l k v) d = nth j l d.
Proof. intros H. now apply nth_upd_neq. Qed.

(** Well-formed states: the address is valid, one column per timestamp. *)
Definition wf (s : st) : Prop := (s_at s < length (s_mem s))%nat /\ length (cell s (s_at s)) = Z.to_nat (ts_len (s_ts s)).
Lemma view_length s : length (view s) = length (cell s (s_at s)).
Proof. unfold view. destruct (s_rows s); auto. apply map_length. Qed.
Lemma write_length s cols : length (write s cols) = length (s_mem s).
Proof. apply upd_length. Qed.
Lemma zipw_len {A B D} (f : A -> B -> D) a b : length a = length b -> length (zipw f a b) = length b.
Proof. revert b. induction a as [|x a IH]; intros [|y b] H; cbn in *; try lia. rewrite IH; lia. Qed.
Lemma write_cell s cols : wf s -> length cols = length (view s) -> length (nth (s_at s) (write s cols) []) = Z.to_nat (ts_len (s_ts s)).
Proof.
  intros [W1 W2] L. unfold write. rewrite upd_nth by exact W1. rewrite view_length in L. destruct (s_rows s); [|congruence]. rewrite zipw_len by exact L. exact W2.
Qed.
Lemma nth_last {A} (l : list A) v d : nth (length l) (l ++ [v]) d = v.
Proof. rewrite app_nth2, Nat.sub_diag by lia. reflexivity. Qed.
Lemma fresh_wf s freqs real mem m : length m = Z.to_nat (ts_len (s_ts s)) -> wf (fresh s freqs real mem m).
Proof. intros L. unfold wf, fresh, cell. cbn [s_at s_mem s_ts]. rewrite nth_last, app_length. cbn [length]. split; [lia|exact L]. Qed.
Lemma finish_len k cols : length (finish k cols) = length cols.
Proof. destruct k; cbn [finish]; apply map_length. Qed.
Lemma step_wf k p s s' r : wf s -> step k p s = Some (s', r) -> wf s'.
Proof.
  intros W H. assert (W0 := W). destruct W as [W1 W2]. assert (VL := view_length s). rewrite W2 in VL. destruct p as [|th]; cbn [step] in H.
  - unfold run_step in H. destruct (precheck k s); [injection H as <- _; exact W0|]. assert (LL := loop_length (passes k s) (view s)). destruct (loop (passes k s) (view s)) as [cols f]. cbn [fst] in LL. destruct f; [| |discriminate]; injection H as <- _.
    + apply fresh_wf. rewrite finish_len. congruence.
    + unfold wf, with_mem, cell. cbn [s_at s_mem s_ts]. split; [rewrite write_length; exact W1|]. now apply write_cell.
  - assert (X : forall freqs m, length m = Z.to_nat (ts_len (s_ts s)) -> wf (fst (plot_fresh s freqs th m))).
    { intros freqs m L. unfold plot_fresh, threshold. destruct (amax m); cbn [bind fst]; apply fresh_wf; [unfold cut; now rewrite map_length|exact L]. }
    injection H as H. unfold plot_step in H. cbv zeta in H. destruct k.
    2:{ destruct (amax (first_rows (s_n s / 2) (view s))); injection H as <- _; unfold wf, cell; cbn [s_at s_mem s_ts]; [|split; assumption]. split; [rewrite upd_length; exact W1|]. rewrite upd_nth by exact W1. unfold cut_first. rewrite map_length. exact W2. }
    5:{ injection H as <- _. exact W0. }
    all: match type of H with plot_fresh _ ?f _ ?m = _ => specialize (X f m); rewrite H in X; apply X end; unfold sqmod_tfr, abs_tfr, first_rows; rewrite !map_length; exact VL.
Qed.
Lemma create_wf x ts n w : wf (create x ts n w).
Proof. unfold wf, create, cell. cbn. split; [lia|]. unfold zeros2. apply repeat_length. Qed.
Lemma history_wf k ps s s' : wf s -> history k ps s = Some s' -> wf s'.
Proof.
  revert s. induction ps as [|p ps IH]; intros s W H; cbn [history] in H; [congruence|]. destruct (step k p s) as [[s1 r]|] eqn:E; [|discriminate]. apply (IH s1); [|exact H]. exact (step_wf _ _ _ _ _ W E).
Qed.
Lemma reachable_wf k s : reachable k s -> wf s.
Proof. intros (x & ts & n & w & ps & H). exact (history_wf _ _ _ _ (create_wf x ts n w) H). Qed.

Lemma loop_pass {A} (f : A -> list C -> res (list C)) (g : A -> list C -> list C * fate) l cols :
  (forall a c, match f a c with Ok c' => g a c = (c', Done) | Raise e => snd (g a c) = Err e end) -> length l = length cols ->
  match snd (loop (map g l) cols) with
  | Done => mapM (fun '(a, c) => f a c) (combine l cols) = Ok (fst (loop (map g l) cols))
  | Err e => mapM (fun '(a, c) => f a c) (combine l cols) = Raise e
  | Nan => False
  end.
Proof.
  intros FG. revert cols. induction l as [|a l IH]; intros [|c cs] L; cbn [length] in L; try lia; [reflexivity|]. cbn [map loop combine mapM]. specialize (FG a c). specialize (IH cs ltac:(lia)). destruct (f a c) as [c'|e].
  - rewrite FG. destruct (loop (map g l) cs) as [cs' [|e|]]; cbn [fst snd] in *; cbn [bind]; try rewrite IH; try reflexivity. exact IH.
  - destruct (g a c) as [c' [|e'|]]; cbn [snd] in FG; try discriminate. injection FG as ->. reflexivity.
Qed.
Lemma pass_ok r (c : list C) : match r c with Ok c' => pass r c = (c', Done) | Raise e => snd (pass r c) = Err e end.
Proof. unfold pass. destruct (r c); reflexivity. Qed.
Lemma two_ok q r (c : list C) : match r c with Ok c' => two_pass q r c = (c', Done) | Raise e => snd (two_pass q r c) = Err e end.
Proof. unfold two_pass. destruct (r c); reflexivity. Qed.
Lemma enum_cols (s : st) : wf s -> enum (view s) = combine (arange 0 (ts_len (s_ts s))) (view s).
Proof. intros [_ W]. unfold enum. f_equal. f_equal. unfold zlen. rewrite view_length, W. assert (0 <= ts_len (s_ts s)) by (destruct (s_ts s); apply zlen_nonneg). lia. Qed.
(** On every reachable state the memory model of [run] and the value model of [run] agree: same
    exception, or the new array holds the new matrix, which is also what the object's [tfr] is. *)
Lemma c121_model : forall k s, reachable k s -> k <> KSpec ->
  exists v, value_run k (obj s) = Some v /\
  match v with
  | Ok o => exists s' a, run_step k s = Some (s', Ok a) /\ obj s' = o /\ cell s' a = r_tfr o /\ a = s_at s'
  | Raise e => exists s', run_step k s = Some (s', Raise e)
  end.
Proof.
  intros k s RE NS. assert (W := reachable_wf _ _ RE). assert (W2 := W). destruct W2 as [W1 W2]. assert (VL : length (view s) = Z.to_nat (ts_len (s_ts s))) by (rewrite view_length; exact W2).
  assert (AL : length (arange 0 (ts_len (s_ts s))) = length (view s)) by (rewrite arange_length, VL; f_equal; lia).
  assert (FIN : forall cols freqs, let mem := write s cols in let s' := fresh s freqs (finish_real k) mem (finish k cols) in
    cell s' (length mem) = finish k cols /\ view s' = finish k cols /\ length mem = s_at s'). { intros cols freqs mem s'. unfold s', fresh, view, cell. cbn [s_rows s_at s_mem]. rewrite nth_last. auto. }
  destruct k; try congruence; cbn [value_run]; eexists; (split; [reflexivity|]); unfold run_step; cbn [precheck finish finish_real] in *.
  - assert (LP := loop_pass (stft_col (s_real s) (s_sig s) (s_win s) (s_n s)) (fun c => pass (stft_col (s_real s) (s_sig s) (s_win s) (s_n s) c)) _ (view s) (fun a c => pass_ok _ c) AL). fold (passes KStft s) in LP. unfold stft_run, stft_tfr. cbn [obj r_sig r_ts r_n r_win r_freqs r_tfr r_real]. rewrite (enum_cols s W).
    destruct (loop (passes KStft s) (view s)) as [cols [|e|]]; cbn [fst snd] in LP; [| |contradiction]; rewrite LP; cbn [bind].
    + destruct (FIN cols (s_freqs s)) as (F1 & F2 & F3). eexists. eexists. split; [reflexivity|]. split; [unfold obj; now rewrite F2|]. auto.
    + eexists. reflexivity.
  - unfold wvd_run, wvd_tfr, wvd_cplx. cbn [obj r_sig r_ts r_n r_win r_freqs r_tfr r_real]. destruct (Z.eqb_spec (ts_len (s_ts s)) (zlen (s_sig s))) as [EL|EL]; [|eexists; reflexivity].
    assert (LP := loop_pass (wvd_col (s_real s) (s_sig s) (s_n s)) (fun c => two_pass (wvd_first (s_real s) (s_sig s) (s_n s) c) (wvd_col (s_real s) (s_sig s) (s_n s) c)) _ (view s) (fun a c => two_ok _ _ c) AL). fold (passes KWvd s) in LP. rewrite (enum_cols s W).
    destruct (loop (passes KWvd s) (view s)) as [cols [|e|]]; cbn [fst snd] in LP; [| |contradiction]; rewrite LP; cbn [bind].
    + destruct (FIN cols (wvd_freqs (s_n s))) as (F1 & F2 & F3). eexists. eexists. split; [reflexivity|]. rewrite map_map. split; [unfold obj; now rewrite F2|]. auto.
    + eexists. reflexivity.
  - unfold pwvd_run, pwvd_tfr. cbn [obj r_sig r_ts r_n r_win r_freqs r_tfr r_real].
    assert (LP := loop_pass (pwvd_col (s_real s) (s_sig s) (s_win s) (s_n s)) (fun c => two_pass (pwvd_first (s_real s) (s_sig s) (s_win s) (s_n s) c) (pwvd_col (s_real s) (s_sig s) (s_win s) (s_n s) c)) _ (view s) (fun a c => two_ok _ _ c) AL). fold (passes KPwvd s) in LP. rewrite (enum_cols s W).
    destruct (loop (passes KPwvd s) (view s)) as [cols [|e|]]; cbn [fst snd] in LP; [| |contradiction]; rewrite LP; cbn [bind fst].
    + destruct (FIN cols (s_freqs s)) as (F1 & F2 & F3). eexists. eexists. split; [reflexivity|]. split; [unfold obj; now rewrite F2|]. auto.
    + eexists. reflexivity.
  - unfold mh_run, mh_tfr. cbn [obj r_sig r_ts r_n r_win r_freqs r_tfr r_real]. destruct (s_ts s) as [l|l] eqn:ET; unfold passes; rewrite ET; cbn [per_ts ts_loop ts_len] in *.
    + assert (LL : length l = length (view s)) by (rewrite VL; unfold zlen; lia). assert (LP := loop_pass (mh_col (s_real s) (s_sig s) (s_n s)) (fun c => pass (mh_col (s_real s) (s_sig s) (s_n s) c)) l (view s) (fun a c => pass_ok _ c) LL).
      destruct (loop _ (view s)) as [cols [|e|]]; cbn [fst snd] in LP; [| |contradiction]; rewrite LP; cbn [bind].
      * destruct (FIN cols (s_freqs s)) as (F1 & F2 & F3). eexists. eexists. split; [reflexivity|]. split; [unfold obj; rewrite F2; cbn [fresh s_sig s_ts s_n s_win s_freqs s_real]; now rewrite ET|]. auto.
      * eexists. reflexivity.
    + destruct l as [|r l].
      * cbn [map loop bind]. assert (VN : view s = []) by (destruct (view s); [reflexivity|cbn in VL; lia]). destruct (FIN (view s) (s_freqs s)) as (F1 & F2 & F3). rewrite VN in *. eexists. eexists. split; [reflexivity|]. split; [unfold obj; rewrite F2; cbn [fresh s_sig s_ts s_n s_win s_freqs s_real map]; now rewrite ET|]. auto.
      * destruct (view s) as [|c cs]; [exfalso; unfold zlen in VL; cbn [length] in VL; lia|]. cbn [map loop fails bind]. eexists. reflexivity.
  - unfold page_run, page_tfr. cbn [obj r_sig r_ts r_n r_win r_freqs r_tfr r_real]. destruct (s_ts s) as [l|l] eqn:ET; unfold passes; rewrite ET; cbn [per_ts ts_loop ts_len] in *.
    + assert (LL : length l = length (view s)) by (rewrite VL; unfold zlen; lia). assert (LP := loop_pass (page_col (s_real s) (s_sig s) (s_n s)) (fun c => pass (page_col (s_real s) (s_sig s) (s_n s) c)) l (view s) (fun a c => pass_ok _ c) LL).
      destruct (loop _ (view s)) as [cols [|e|]]; cbn [fst snd] in LP; [| |contradiction]; rewrite LP; cbn [bind].
      * destruct (FIN cols (s_freqs s)) as (F1 & F2 & F3). eexists. eexists. split; [reflexivity|]. split; [unfold obj; rewrite F2; cbn [fresh s_sig s_ts s_n s_win s_freqs s_real]; now rewrite ET|]. auto.
      * eexists. reflexivity.
    + destruct l as [|r l].
      * cbn [map loop bind]. assert (VN : view s = []) by (destruct (view s); [reflexivity|cbn in VL; lia]). destruct (FIN (view s) (s_freqs s)) as (F1 & F2 & F3). rewrite VN in *. eexists. eexists. split; [reflexivity|]. split; [unfold obj; rewrite F2; cbn [fresh s_sig s_ts s_n s_win s_freqs s_real map]; now rewrite ET|]. auto.
      * destruct (view s) as [|c cs]; [exfalso; unfold zlen in VL; cbn [length] in VL; lia|]. cbn [map loop fails bind]. eexists. reflexivity.
  - assert (LP := loop_pass (pmh_col (s_real s) (s_sig s) (s_win s) (s_n s)) (fun c => pass (pmh_col (s_real s) (s_sig s) (s_win s) (s_n s) c)) _ (view s) (fun a c => pass_ok _ c) AL). fold (passes KPmh s) in LP. unfold pmh_run, pmh_tfr. cbn [obj r_sig r_ts r_n r_win r_freqs r_tfr r_real]. rewrite (enum_cols s W).
    destruct (loop (passes KPmh s) (view s)) as [cols [|e|]]; cbn [fst snd] in LP; [| |contradiction]; rewrite LP; cbn [bind].
    + destruct (FIN cols (s_freqs s)) as (F1 & F2 & F3). eexists. eexists. split; [reflexivity|]. split; [unfold obj; now rewrite F2|]. auto.
    + eexists. reflexivity.
Qed.

(** *** What a call leaves alone *)
(** The caller's signal, timestamps and window are never written. *)
Lemma step_inputs k p s s' r : step k p s = Some (s', r) -> s_sig s' = s_sig s /\ s_ts s' = s_ts s /\ s_n s' = s_n s /\ s_win s' = s_win s.
Proof.
  intros H. assert (X : forall freqs th m, let s1 := fst (plot_fresh s freqs th m) in s_sig s1 = s_sig s /\ s_ts s1 = s_ts s /\ s_n s1 = s_n s /\ s_win s1 = s_win s) by (intros freqs th m; unfold plot_fresh; destruct (threshold th m); cbn; auto).
  destruct p as [|th]; cbn [step] in H.
  - unfold run_step in H. destruct (precheck k s); [injection H as <- _; auto|]. destruct (loop (passes k s) (view s)) as [cols [| |]]; [| |discriminate]; injection H as <- _; auto.
  - injection H as H. unfold plot_step in H. cbv zeta in H. destruct k.
    2:{ destruct (amax (first_rows (s_n s / 2) (view s))); injection H as <- _; auto. }
    5:{ injection H as <- _. auto. }
    all: match type of H with plot_fresh _ ?f ?t ?m = _ => specialize (X f t m); rewrite H in X; exact X end.
Qed.
Lemma c121_inputs : forall k ps s s', history k ps s = Some s' -> s_sig s' = s_sig s /\ s_ts s' = s_ts s /\ s_n s' = s_n s /\ s_win s' = s_win s.
Proof.
  intros k ps. induction ps as [|p ps IH]; intros s s' H; cbn [history] in H; [injection H as <-; auto|]. destruct (step k p s) as [[s1 r]|] eqn:E; [|discriminate]. destruct (step_inputs _ _ _ _ _ E) as (A1 & A2 & A3 & A4). destruct (IH _ _ H) as (B1 & B2 & B3 & B4). repeat split; congruence.
Qed.
(** One call: it writes at most into the object's own array, and the object either keeps that array
    or gets a new one. *)
Definition frame (s s' : st) : Prop :=
  (length (s_mem s) <= length (s_mem s'))%nat /\ (s_at s' = s_at s \/ (length (s_mem s) <= s_at s')%nat) /\
  forall a, (a < length (s_mem s))%nat -> a <> s_at s -> cell s' a = cell s a.
Lemma fresh_frame s freqs real mem m : length mem = length (s_mem s) -> (forall a, a <> s_at s -> nth a mem [] = cell s a) -> frame s (fresh s freqs real mem m).
Proof.
  intros L H. unfold frame, fresh. cbn [s_mem s_at]. rewrite app_length. split; [lia|]. split; [right; lia|]. intros a La Na. unfold cell at 1. cbn [s_mem]. rewrite app_nth1 by lia. now apply H.
Qed.
Lemma step_frame k p s s' r : step k p s = Some (s', r) -> frame s s'.
Proof.
  intros H. assert (REF : frame s s) by (unfold frame; auto). destruct p as [|th]; cbn [step] in H.
  - unfold run_step in H. destruct (precheck k s); [injection H as <- _; exact REF|]. destruct (loop (passes k s) (view s)) as [cols [| |]]; [| |discriminate]; injection H as <- _.
    + apply fresh_frame; [apply write_length|]. intros a Na. unfold write. rewrite upd_other by exact Na. reflexivity.
    + unfold frame, with_mem. cbn [s_mem s_at]. rewrite write_length. split; [lia|]. split; [now left|]. intros a _ Na. unfold cell at 1. cbn [s_mem]. unfold write. now rewrite upd_other by exact Na.
  - assert (X : forall freqs m, frame s (fst (plot_fresh s freqs th m))). { intros freqs m. unfold plot_fresh. destruct (threshold th m); cbn [fst]; apply fresh_frame; auto. }
    injection H as H. unfold plot_step in H. cbv zeta in H. destruct k.
    2:{ destruct (amax (first_rows (s_n s / 2) (view s))); injection H as <- _; unfold frame; cbn [s_mem s_at]; (split; [try rewrite upd_length; lia|]); (split; [now left|]); intros b _ Nb; unfold cell at 1; cbn [s_mem]; [now rewrite upd_other by exact Nb|reflexivity]. }
    5:{ injection H as <- _. exact REF. }
    all: match type of H with plot_fresh _ ?f _ ?m = _ => specialize (X f m); rewrite H in X; exact X end.
Qed.
Lemma history_frame k ps s s' : history k ps s = Some s' -> frame s s'.
Proof.
  revert s. induction ps as [|p ps IH]; intros s H; cbn [history] in H; [injection H as <-; unfold frame; auto|]. destruct (step k p s) as [[s1 r]|] eqn:E; [|discriminate]. destruct (step_frame _ _ _ _ _ E) as (A1 & A2 & A3). destruct (IH _ H) as (B1 & B2 & B3). split; [lia|]. split.
  - destruct B2 as [B2|B2]; [rewrite B2; exact A2|right; lia].
  - intros a La Na. rewrite B3; [now apply A3|lia|]. destruct A2 as [A2|A2]; [congruence|lia].
Qed.
(** Whatever is called, in whatever order and with whatever outcome: an array that is not the
    object's own is never changed. *)
Lemma c121_others : forall k s ps s' a, history k ps s = Some s' -> (a < length (s_mem s))%nat -> a <> s_at s -> cell s' a = cell s a.
Proof. intros k s ps s' a H La Na. destruct (history_frame _ _ _ _ H) as (_ & _ & F). now apply F. Qed.
Lemma run_result k s s' a : run_step k s = Some (s', Ok a) -> a = s_at s' /\ a = length (s_mem s) /\ (a < length (s_mem s'))%nat.
Proof.
  intros H. unfold run_step in H. destruct (precheck k s); [discriminate|]. destruct (loop (passes k s) (view s)) as [cols [| |]]; [|discriminate|discriminate]. injection H as <- <-. cbn [fresh s_at s_mem]. rewrite app_length, write_length. cbn [length]. repeat split; lia.
Qed.
(** So a result is final once a later [run] has returned: only the most recent result can still
    change. *)
Lemma c121_earlier_results : forall k s s1 a ps s2 s3 b ps' s4,
  run_step k s = Some (s1, Ok a) -> history k ps s1 = Some s2 -> run_step k s2 = Some (s3, Ok b) -> history k ps' s3 = Some s4 ->
  a <> b /\ cell s4 a = cell s3 a /\ seen k s4 a = seen k s3 a.
Proof.
  intros k s s1 a ps s2 s3 b ps' s4 R1 H1 R2 H2. destruct (run_result _ _ _ _ R1) as (A1 & A2 & A3). destruct (run_result _ _ _ _ R2) as (B1 & B2 & B3). destruct (history_frame _ _ _ _ H1) as (L & _ & _). assert (N : a <> b) by lia. assert (E : cell s4 a = cell s3 a) by (apply (c121_others _ _ _ _ _ H2); lia). split; [exact N|]. split; [exact E|]. unfold seen. now rewrite E.
Qed.
(** Plotting between two runs protects the result, for every class but Spectrogram (which writes
    through, C16) and Page (where [plot] raises and does nothing). *)
Lemma c121_after_plot : forall k s s1 a th s2 r ps s3, k <> KSpec -> k <> KPage ->
  run_step k s = Some (s1, Ok a) -> step k (Plot th) s1 = Some (s2, r) -> history k ps s2 = Some s3 ->
  cell s3 a = cell s1 a /\ seen k s3 a = seen k s1 a.
Proof.
  intros k s s1 a th s2 r ps s3 NS NP R1 P H. destruct (run_result _ _ _ _ R1) as (A1 & A2 & A3).
  assert (X : s_at s2 = length (s_mem s1) /\ (length (s_mem s1) < length (s_mem s2))%nat /\ cell s2 a = cell s1 a).
  { assert (Y : forall freqs m, let t := fst (plot_fresh s1 freqs th m) in s_at t = length (s_mem s1) /\ (length (s_mem s1) < length (s_mem t))%nat /\ cell t a = cell s1 a).
    { intros freqs m. unfold plot_fresh. destruct (threshold th m); cbn [fst fresh s_at s_mem]; rewrite app_length; cbn [length]; (split; [reflexivity|]); (split; [lia|]); unfold cell; cbn [s_mem fresh]; now rewrite app_nth1 by lia. }
    cbn [step] in P. injection P as P. unfold plot_step in P. cbv zeta in P. destruct k; try congruence; match type of P with plot_fresh _ ?f _ ?m = _ => specialize (Y f m); rewrite P in Y; exact Y end. }
  destruct X as (X1 & X2 & X3). assert (E : cell s3 a = cell s1 a) by (rewrite <- X3; apply (c121_others _ _ _ _ _ H); lia). split; [exact E|]. unfold seen. now rewrite E.
Qed.
Lemma c121_page_plot : forall th s, step KPage (Plot th) s = Some (s, Raise TypeError).
Proof. reflexivity. Qed.

(** *** What a second run does to the first result *)
Lemma loop_all {A} (g : A -> list C -> list C * fate) (F G : A -> list C) l :
  (forall a, In a l -> g a (F a) = (G a, Done)) -> loop (map g l) (map F l) = (map G l, Done).
Proof.
  induction l as [|a l IH]; intros H; [reflexivity|]. cbn [map loop]. rewrite H by now left. rewrite IH; [reflexivity|]. intros b Hb. apply H. now right.
Qed.
Lemma zeros2_map n t : zeros2 (T:=C) n t = map (fun _ => zeros n) (arange 0 t).
Proof.
  unfold zeros2. assert (L : length (arange 0 t) = Z.to_nat t) by (rewrite arange_length; f_equal; lia). rewrite <- L. generalize (arange 0 t). intros l. induction l as [|a l IH]; cbn; [reflexivity|]. now f_equal.
Qed.
Lemma nth_puts_last {B} (l : list C) (ix : B -> Z) (g : B -> C) k1 k k2 : 0 <= ix k < zlen l ->
  (forall j, In j k2 -> 0 <= ix j /\ ix j <> ix k) -> cnth (puts l (map (fun j => (ix j, g j)) (k1 ++ k :: k2))) (ix k) = g k.
Proof.
  intros Hk H. rewrite map_app. cbn [map]. revert l Hk. induction k1 as [|a k1 IH]; intros l Hk; cbn [map app puts].
  - unfold cnth. rewrite nth_puts_out; [|lia|].
    + apply upd_nth. unfold zlen in Hk. lia.
    + intros i v Hi. apply in_map_iff in Hi. destruct Hi as (j & E & Hj). injection E as <- <-. now apply H.
  - apply IH. unfold zlen in *. now rewrite upd_length.
Qed.
Lemma arange_at a b t : a <= t < b -> arange a b = arange a t ++ t :: arange (t + 1) b.
Proof.
  intros H. rewrite (arange_app a t b) by lia. f_equal. rewrite (arange_app t (t + 1) b) by lia. replace (arange t (t + 1)) with [t]; [reflexivity|]. unfold arange. replace (t + 1 - t) with 1 by lia. change (Z.to_nat 1) with 1%nat. cbn [seq map]. f_equal. lia.
Qed.
(** The short-time Fourier transform.  After [run, run] the array returned by the first call holds,
    in column c, the windowed samples in the rows of the lags (the last lag of each residue), and
    what it held before in the other rows. *)
Lemma c121_stft_second_run : forall x ts n w, 1 <= n ->
  exists s1 a s2 b, run_step KStft (create x (Some ts) (Some n) (Some w)) = Some (s1, Ok a) /\ run_step KStft s1 = Some (s2, Ok b) /\
  (exists o, stft x (Some ts) (Some n) (Some w) = Ok o /\ seen KStft s1 a = r_tfr o) /\
  forall c, 0 <= c < ts_len ts ->
  let m := Z.min (round_half n) ((zlen w - 1) / 2) in
  let lag t := - Z.min m (c - 1) <= t <= Z.min m (zlen x - c) in
  (forall t, lag t -> (forall t', lag t' -> t < t' -> t' mod n <> t mod n) ->
     at2 (seen KStft s2 a) (t mod n) c = (cnth x (c + t - 1) * Cconj (cnth w ((zlen w - 1) / 2 + t)))%C) /\
  (forall f, 0 <= f < n -> (forall t, lag t -> t mod n <> f) -> at2 (seen KStft s2 a) f c = at2 (seen KStft s1 a) f c).
Proof.
  intros x ts n w Hn. set (T := ts_len ts). assert (HT : 0 <= T) by (unfold T; destruct ts; apply zlen_nonneg).
  set (F0 := fun c => scatter n (stft_taus (zlen x) w n c) (stft_val x w c)). set (F := fun c => fft (F0 c)). set (G := fun c => puts (F c) (map (fun t => ((n + t) mod n, stft_val x w c t)) (stft_taus (zlen x) w n c))).
  assert (LF0 : forall c, zlen (F0 c) = n) by (intros c; apply scatter_zlen; lia).
  assert (R1 : run_step KStft (create x (Some ts) (Some n) (Some w)) = Some (mkst x ts n w (base_freqs n) 1 None false [map F0 (arange 0 T); map F (arange 0 T)], Ok 1%nat)).
  { unfold run_step. cbn [precheck]. unfold passes, view, cell, create. cbn [s_sig s_ts s_n s_win s_freqs s_real s_rows s_mem s_at base_init r_sig r_ts r_n r_win r_freqs r_tfr nth]. fold T. rewrite zeros2_map.
    rewrite (loop_all _ _ F0) by (intros c _; unfold pass; rewrite stft_col_ok by (try (apply zeros_zlen); lia); reflexivity). unfold fresh, write. cbn [s_sig s_ts s_n s_win s_freqs s_real s_rows s_mem s_at upd length app finish finish_real]. rewrite map_map. reflexivity. }
  assert (R2 : run_step KStft (mkst x ts n w (base_freqs n) 1 None false [map F0 (arange 0 T); map F (arange 0 T)])
     = Some (mkst x ts n w (base_freqs n) 2 None false [map F0 (arange 0 T); map G (arange 0 T); map (fun c => fft (G c)) (arange 0 T)], Ok 2%nat)).
  { unfold run_step. cbn [precheck]. unfold passes, view, cell. cbn [s_sig s_ts s_n s_win s_freqs s_real s_rows s_mem s_at nth]. fold T.
    rewrite (loop_all _ _ G) by (intros c _; unfold pass; rewrite stft_col_ok by (try (unfold F; rewrite fft_zlen; apply LF0); lia); reflexivity). unfold fresh, write. cbn [s_sig s_ts s_n s_win s_freqs s_real s_rows s_mem s_at upd length app finish finish_real]. rewrite map_map. reflexivity. }
  do 4 eexists. split; [exact R1|]. split; [exact R2|]. split.
  - eexists. split; [unfold stft, stft_run; cbn [base_init r_sig r_ts r_n r_win r_freqs r_tfr r_real]; rewrite stft_tfr_fresh by lia; cbn [bind]; reflexivity|]. cbn [r_tfr seen]. unfold cell. cbn [s_mem nth]. reflexivity.
  - intros c Hc m lag. cbn [seen]. unfold cell. cbn [s_mem nth]. assert (LF : zlen (F c) = n) by (unfold F; rewrite fft_zlen; apply LF0). split.
    + intros t Ht Hl. rewrite at2_map by exact Hc. unfold G, stft_taus. fold (win_lh w) in *. fold m. rewrite (arange_at _ _ t) by (unfold lag in Ht; lia). replace (t mod n) with ((n + t) mod n) by (apply mod_add_n; lia).
      rewrite (nth_puts_last (F c) (fun t => (n + t) mod n) (stft_val x w c)); [reflexivity| |].
      * rewrite LF. apply Z.mod_pos_bound. lia.
      * intros j Hj. apply in_arange in Hj. rewrite !mod_add_n by lia. split; [apply Z.mod_pos_bound; lia|]. apply Hl; [unfold lag in *; lia|lia].
    + intros f Hf Hout. rewrite !at2_map by exact Hc. unfold G, cnth. apply nth_puts_out; [lia|]. intros i v Hi. apply in_map_iff in Hi. destruct Hi as (t & E & Ht). injection E as <- <-. rewrite mod_add_n by lia. split; [apply Z.mod_pos_bound; lia|]. apply Hout. unfold stft_taus in Ht. fold (win_lh w) in m. fold m in Ht. apply in_arange in Ht. unfold lag. lia.
Qed.
(** The Wigner-Ville distribution: the first result loses its central rows to the real parts of the
    lag products. *)
Lemma c121_wvd_second_run : forall x ts n o, 1 <= n -> wvd x (Some ts) (Some n) = Ok o ->
  exists s1 a s2 b, run_step KWvd (create x (Some ts) (Some n) None) = Some (s1, Ok a) /\ run_step KWvd s1 = Some (s2, Ok b) /\ seen KWvd s1 a = r_tfr o /\
  forall c, 0 <= c < zlen x ->
  let m := Z.min (Z.min c (zlen x - c - 1)) (round_half n - 1) in
  (forall t, - m <= t <= m -> at2 (seen KWvd s2 a) (t mod n) c = RtoC (Re (cnth x (c + t) * Cconj (cnth x (c - t)))%C)) /\
  (forall f, 0 <= f < n -> (forall t, - m <= t <= m -> t mod n <> f) -> at2 (seen KWvd s2 a) f c = at2 (r_tfr o) f c).
Proof.
  intros x ts n o Hn H. unfold wvd, wvd_run in H. cbn [r_sig r_win r_n r_tfr r_ts r_freqs r_real base_init] in H.
  destruct (wvd_tfr false x (ts_len ts) n (zeros2 n (ts_len ts))) as [tfr|] eqn:Et; [|discriminate].
  assert (HT : ts_len ts = zlen x) by (unfold wvd_tfr, wvd_cplx in Et; destruct (Z.eqb_spec (ts_len ts) (zlen x)); auto; discriminate).
  rewrite HT in Et. assert (Hb : forall c, 0 <= c < zlen x -> wvd_bad (zlen x) n c = false) by (intros c Hc; destruct (wvd_bad (zlen x) n c) eqn:E; auto; rewrite wvd_tfr_raise in Et; [discriminate|lia|eauto]).
  rewrite wvd_tfr_fresh in Et by (auto; lia). set (N := zlen x) in *.
  set (F := fun c => map nre (fft (wvd_raw x n c))) in *. set (G := fun c => puts (F c) (map (fun t => ((n + t) mod n, RtoC (Re (wvd_val x c t)))) (wvd_taus N n c))).
  assert (LF : forall c, zlen (F c) = n) by (intros c; unfold F; rewrite zlen_map, fft_zlen; apply scatter_zlen; lia).
  set (W := map RtoC (make_window n)).
  assert (R1 : run_step KWvd (create x (Some ts) (Some n) None) = Some (mkst x ts n W (wvd_freqs n) 1 None true [map (wvd_raw x n) (arange 0 N); map F (arange 0 N)], Ok 1%nat)).
  { unfold run_step, precheck. unfold passes, view, cell, create. cbn [s_sig s_ts s_n s_win s_freqs s_real s_rows s_mem s_at base_init r_sig r_ts r_n r_win r_freqs r_tfr nth]. fold N. rewrite HT, Z.eqb_refl, zeros2_map.
    rewrite (loop_all _ _ (wvd_raw x n)). 2:{ intros c Hc. apply in_arange in Hc. unfold two_pass. rewrite wvd_col_ok by (try (apply zeros_zlen); lia). fold N. rewrite Hb by lia. reflexivity. }
    unfold fresh, write. cbn [s_sig s_ts s_n s_win s_freqs s_real s_rows s_mem s_at upd length app finish finish_real]. rewrite map_map. reflexivity. }
  assert (R2 : run_step KWvd (mkst x ts n W (wvd_freqs n) 1 None true [map (wvd_raw x n) (arange 0 N); map F (arange 0 N)])
     = Some (mkst x ts n W (wvd_freqs n) 2 None true [map (wvd_raw x n) (arange 0 N); map G (arange 0 N); map (fun c => map nre (fft (G c))) (arange 0 N)], Ok 2%nat)).
  { unfold run_step, precheck. unfold passes, view, cell. cbn [s_sig s_ts s_n s_win s_freqs s_real s_rows s_mem s_at nth]. fold N. rewrite HT, Z.eqb_refl.
    rewrite (loop_all _ _ G). 2:{ intros c Hc. apply in_arange in Hc. unfold two_pass. rewrite wvd_col_real by (auto; lia). fold N. rewrite Hb by lia. reflexivity. }
    unfold fresh, write. cbn [s_sig s_ts s_n s_win s_freqs s_real s_rows s_mem s_at upd length app finish finish_real]. rewrite map_map. reflexivity. }
  do 4 eexists. split; [exact R1|]. split; [exact R2|]. split.
  - cbn [bind] in H. okeq H. cbn [r_tfr seen]. unfold cell. cbn [s_mem nth]. congruence.
  - intros c Hc m. cbn [seen]. unfold cell. cbn [s_mem nth]. assert (RH := round_half_bounds n). assert (TO : r_tfr o = map F (arange 0 N)) by (cbn [bind] in H; okeq H; cbn [r_tfr]; congruence). split.
    + intros t Ht. rewrite at2_map by exact Hc. unfold G, wvd_taus. fold m. rewrite (arange_at _ _ t) by lia. replace (t mod n) with ((n + t) mod n) by (apply mod_add_n; lia).
      rewrite (nth_puts_last (F c) (fun t => (n + t) mod n) (fun t => RtoC (Re (wvd_val x c t)))); [reflexivity| |].
      * rewrite LF. apply Z.mod_pos_bound. lia.
      * intros j Hj. apply in_arange in Hj. rewrite !mod_add_n by lia. split; [apply Z.mod_pos_bound; lia|]. intros E. assert (D : (n | j - t)) by (apply Z.mod_divide; [lia|]; rewrite Zminus_mod, E, Z.sub_diag; apply Z.mod_0_l; lia). apply Z.divide_pos_le in D; lia.
    + intros f Hf Hout. rewrite TO, !at2_map by exact Hc. unfold G, cnth. apply nth_puts_out; [lia|]. intros i v Hi. apply in_map_iff in Hi. destruct Hi as (t & E & Ht). injection E as <- <-. rewrite mod_add_n by lia. split; [apply Z.mod_pos_bound; lia|]. apply Hout. unfold wvd_taus in Ht. fold m in Ht. apply in_arange in Ht. lia.
Qed.
(** The spectrogram (a window without zeros, so that no NaN occurs): likewise, with the windowed
    samples divided by the norm of the part of the window used. *)
Lemma spec_col_real x w n ti col : 0 < n -> zlen col = n ->
  spec_col true x w n ti col =
  Ok (match spec_taus (zlen x) w n ti with
      | [] => Some col
      | _ => if Req_EM_T (spec_nrm x w n ti) 0 then None
             else Some (puts col (map (fun t => ((n + t) mod n, RtoC (Re (spec_val x w n ti t)))) (spec_taus (zlen x) w n ti)))
      end).
Proof.
  intros Hn Hc. unfold spec_col. fold (spec_m w n). fold (spec_taus (zlen x) w n ti).
  rewrite (take_ok (RtoC 0)).
  2:{ intros i Hi. apply in_map_iff in Hi. destruct Hi as [t [<- Ht]]. apply spec_taus_ok in Ht. lia. }
  cbn [bind]. rewrite (take_ok (RtoC 0)).
  2:{ intros i Hi. apply in_map_iff in Hi. destruct Hi as [t [<- Ht]]. rewrite zlen_map. apply spec_taus_ok in Ht. lia. }
  cbn [bind]. rewrite !map_map, bcast_map. cbn [bind]. rewrite (take_ok (RtoC 0)).
  2:{ intros i Hi. apply in_map_iff in Hi. destruct Hi as [t [<- Ht]]. apply spec_taus_ok in Ht. lia. }
  cbn [bind]. rewrite !map_map.
  rewrite (put_map_ok col (remainder n)).
  2:{ intros t _. rewrite Hc. apply Z.mod_pos_bound. lia. }
  cbn [bind]. change (norm2 _) with (spec_nrm x w n ti).
  f_equal. destruct (spec_taus (zlen x) w n ti) as [|a l] eqn:E; [reflexivity|].
  destruct (Req_EM_T (spec_nrm x w n ti) 0); auto. f_equal. f_equal. apply map_ext. intros t. unfold remainder. f_equal.
  unfold spec_val, ncast. cbn [nre NumC]. do 4 f_equal. apply (cnth_conj w).
Qed.
Lemma spec_nrm_pos (x w : list C) n ti : (forall v, In v w -> v <> RtoC 0) -> spec_taus (zlen x) w n ti <> [] -> spec_nrm x w n ti <> 0%R.
Proof.
  intros Hw NE Q. destruct (spec_taus (zlen x) w n ti) as [|t l] eqn:E; [congruence|]. assert (Ht : In t (spec_taus (zlen x) w n ti)) by (rewrite E; now left). assert (B := spec_taus_ok x w n ti t Ht).
  apply (Hw (cnth w (win_lh w + t))); [apply nth_In; unfold zlen in B; lia|]. unfold spec_nrm, norm2 in Q. apply sqrt_eq_0 in Q; [|apply rsum_nonneg; intros; apply pow2_ge_0]. assert (Z0 : (Cmod (cnth w (win_lh w + t)) ^ 2 = 0)%R). { apply (rsum_nonneg_0 _ (fun z => Cmod z ^ 2)%R (fun z _ => pow2_ge_0 (Cmod z)) Q). exact (in_map (fun t => cnth w (win_lh w + t)) _ t Ht). } apply Cmod_eq_0. nra.
Qed.
Lemma c121_spectrogram_second_run : forall x l n w, 1 <= n -> (forall v, In v w -> v <> RtoC 0) ->
  exists s1 a s2 b, run_step KSpec (create x (Some (TsI l)) (Some n) (Some w)) = Some (s1, Ok a) /\ run_step KSpec s1 = Some (s2, Ok b) /\
  spectrogram x (Some (TsI l)) (Some n) (Some w) = Ok (map (fun c => Some (map Re c)) (seen KSpec s1 a)) /\
  forall i ti, 0 <= i -> nth_error l (Z.to_nat i) = Some ti ->
  let lh := (zlen w - 1) / 2 in
  let m := Z.min (round_half n - 1) lh in
  let lags := arange (- Z.min m (ti - 1)) (Z.min m (zlen x - ti) + 1) in
  let norm := sqrt (rsum lags (fun t => Cmod (cnth w (lh + t)) ^ 2))%R in
  (forall t, In t lags -> at2 (seen KSpec s2 a) (t mod n) i = RtoC (Re (cnth x (ti + t - 1) * Cconj (cnth w (lh + t)) / RtoC norm)%C)) /\
  (forall f, 0 <= f < n -> (forall t, In t lags -> t mod n <> f) -> at2 (seen KSpec s2 a) f i = at2 (seen KSpec s1 a) f i).
Proof.
  intros x l n w Hn Hw. set (F0 := fun ti => scatter n (spec_taus (zlen x) w n ti) (spec_val x w n ti)). set (F := fun ti => map (fun z => RtoC (Cmod z ^ 2)) (fft (F0 ti))).
  set (G := fun ti => puts (F ti) (map (fun t => ((n + t) mod n, RtoC (Re (spec_val x w n ti t)))) (spec_taus (zlen x) w n ti))).
  assert (LF0 : forall ti, zlen (F0 ti) = n) by (intros c; apply scatter_zlen; lia).
  assert (LF : forall ti, zlen (F ti) = n) by (intros c; unfold F; rewrite zlen_map, fft_zlen; apply LF0).
  assert (Z2 : zeros2 (T:=C) n (zlen l) = map (fun _ => zeros n) l). { unfold zeros2, zlen. rewrite Nat2Z.id. induction l as [|u l IH]; cbn; [reflexivity|]. now rewrite IH. }
  assert (R1 : run_step KSpec (create x (Some (TsI l)) (Some n) (Some w)) = Some (mkst x (TsI l) n w (base_freqs n) 1 None true [map F0 l; map F l], Ok 1%nat)).
  { unfold run_step. cbn [precheck]. unfold passes, view, cell, create. cbn [s_sig s_ts s_n s_win s_freqs s_real s_rows s_mem s_at base_init r_sig r_ts r_n r_win r_freqs r_tfr nth ts_len per_ts]. rewrite Z2.
    rewrite (loop_all _ _ F0). 2:{ intros ti _. unfold spec_pass. rewrite spec_col_ok by (try (apply zeros_zlen); lia). unfold F0, scatter. destruct (spec_taus (zlen x) w n ti) as [|t0 tl] eqn:E; [reflexivity|]. destruct (Req_EM_T (spec_nrm x w n ti) 0) as [Q|_]; [|reflexivity]. exfalso. apply (spec_nrm_pos x w n ti Hw); [rewrite E; discriminate|exact Q]. }
    unfold fresh, write. cbn [s_sig s_ts s_n s_win s_freqs s_real s_rows s_mem s_at upd length app finish finish_real]. rewrite map_map. reflexivity. }
  assert (R2 : run_step KSpec (mkst x (TsI l) n w (base_freqs n) 1 None true [map F0 l; map F l])
     = Some (mkst x (TsI l) n w (base_freqs n) 2 None true [map F0 l; map G l; map (fun ti => map (fun z => RtoC (Cmod z ^ 2)) (fft (G ti))) l], Ok 2%nat)).
  { unfold run_step. cbn [precheck]. unfold passes, view, cell. cbn [s_sig s_ts s_n s_win s_freqs s_real s_rows s_mem s_at nth ts_len per_ts].
    rewrite (loop_all _ _ G). 2:{ intros ti _. unfold spec_pass. rewrite spec_col_real by (auto; lia). unfold G. destruct (spec_taus (zlen x) w n ti) as [|t0 tl] eqn:E; [reflexivity|]. destruct (Req_EM_T (spec_nrm x w n ti) 0) as [Q|_]; [|reflexivity]. exfalso. apply (spec_nrm_pos x w n ti Hw); [rewrite E; discriminate|exact Q]. }
    unfold fresh, write. cbn [s_sig s_ts s_n s_win s_freqs s_real s_rows s_mem s_at upd length app finish finish_real]. rewrite map_map. reflexivity. }
  do 4 eexists. split; [exact R1|]. split; [exact R2|]. split.
  - rewrite spectrogram_ok by lia. f_equal. cbn [seen]. unfold cell. cbn [s_mem nth]. rewrite map_map. apply map_ext. intros ti. unfold spec_out, F, F0. rewrite map_map. destruct (spec_taus (zlen x) w n ti) as [|t0 tl] eqn:E; [reflexivity|]. destruct (Req_EM_T (spec_nrm x w n ti) 0) as [Q|_]; [|reflexivity]. exfalso. apply (spec_nrm_pos x w n ti Hw); [rewrite E; discriminate|exact Q].
  - intros i ti Hi Ei lh m lags norm. cbn [seen]. unfold cell. cbn [s_mem nth]. assert (RH := round_half_bounds n). fold (win_lh w) in lh. change lags with (spec_taus (zlen x) w n ti).
    assert (NR : norm = spec_nrm x w n ti) by (unfold norm, spec_nrm, norm2; rewrite rsum_map; reflexivity). split.
    + intros t Ht. rewrite (at2_map_list G l _ i ti Ei). unfold G. change (spec_taus (zlen x) w n ti) with lags in *. unfold lags in Ht. apply in_arange in Ht. unfold lags. rewrite (arange_at _ _ t) by lia. replace (t mod n) with ((n + t) mod n) by (apply mod_add_n; lia).
      rewrite (nth_puts_last (F ti) (fun t => (n + t) mod n) (fun t => RtoC (Re (spec_val x w n ti t)))).
      * unfold spec_val. now rewrite NR.
      * rewrite LF. apply Z.mod_pos_bound. lia.
      * intros j Hj. apply in_arange in Hj. rewrite !mod_add_n by lia. split; [apply Z.mod_pos_bound; lia|]. intros E. assert (D : (n | j - t)) by (apply Z.mod_divide; [lia|]; rewrite Zminus_mod, E, Z.sub_diag; apply Z.mod_0_l; lia). apply Z.divide_pos_le in D; lia.
    + intros f Hf Hout. rewrite (at2_map_list G l _ i ti Ei), (at2_map_list F l _ i ti Ei). unfold G, cnth. apply nth_puts_out; [lia|]. intros j v Hj. apply in_map_iff in Hj. destruct Hj as (t & E & Ht). injection E as <- <-. rewrite mod_add_n by lia. split; [apply Z.mod_pos_bound; lia|]. now apply Hout.
Qed.
(** So handing the result on and running again is not safe: the distribution of three ones is 3 in
    the middle of row 0; after a second call the same array says 1. *)
Lemma c121_refuted : exists s1 a s2 b, run_step KWvd (create [RtoC 1; RtoC 1; RtoC 1] (Some (TsI [0; 1; 2])) (Some 3) None) = Some (s1, Ok a) /\ run_step KWvd s1 = Some (s2, Ok b) /\
  at2 (seen KWvd s1 a) 0 1 = RtoC 3 /\ at2 (seen KWvd s2 a) 0 1 = RtoC 1.
Proof.
  set (x := [RtoC 1; RtoC 1; RtoC 1]). assert (RH : round_half 3 = 2) by reflexivity.
  assert (Hb : forall c, 0 <= c < zlen x -> wvd_bad (zlen x) 3 c = false). { intros c Hc. change (zlen x) with 3 in *. unfold wvd_bad. rewrite RH. destruct (Z.leb_spec c (3 - 2)), (Z.leb_spec (2 + 1) c); cbn; auto; lia. }
  assert (E : exists o, wvd x (Some (TsI [0; 1; 2])) (Some 3) = Ok o /\ at2 (r_tfr o) 0 1 = RtoC 3).
  { unfold wvd, wvd_run. cbn [base_init r_sig r_ts r_n r_win r_freqs r_tfr r_real ts_len]. change (zlen [0; 1; 2]) with (zlen x). rewrite wvd_tfr_fresh by (auto; lia). cbn [bind]. eexists. split; [reflexivity|]. cbn [r_tfr]. change (zlen x) with 3. rewrite at2_map by lia. rewrite cnth_map_re by (rewrite fft_zlen; unfold wvd_raw; rewrite scatter_zlen; lia). rewrite wvd_raw_entry by lia.
    assert (TT : wvd_taus (zlen x) 3 1 = [-1; 0; 1]) by reflexivity. rewrite TT. unfold esum. rewrite !csum_cons, csum_nil, !Z.mul_0_l. change (- 0) with 0. rewrite root_0. unfold wvd_val. change (1 + -1) with 0. change (1 - -1) with 2. change (1 + 0) with 1. change (1 - 0) with 1. change (1 + 1) with 2. change (1 - 1) with 0. change (cnth x 0) with (RtoC 1). change (cnth x 1) with (RtoC 1). change (cnth x 2) with (RtoC 1). apply injective_projections; cbn; ring. }
  destruct E as (o & E & V). destruct (c121_wvd_second_run x (TsI [0; 1; 2]) 3 o ltac:(lia) E) as (s1 & a & s2 & b & R1 & R2 & S1 & S2). exists s1, a, s2, b. split; [exact R1|]. split; [exact R2|]. split; [rewrite S1; exact V|]. destruct (S2 1 ltac:(change (zlen x) with 3; lia)) as [S3 _]. change (zlen x) with 3 in S3. rewrite RH in S3. rewrite (S3 0 ltac:(lia) : at2 (seen KWvd s2 a) 0 1 = _). change (cnth x (1 + 0)) with (RtoC 1). change (cnth x (1 - 0)) with (RtoC 1). apply injective_projections; cbn; ring.
Qed.
