(** C58 (float block lengths) and C133: the programs of the docstrings. *)
From Coq Require Import Reals ZArith List Lia Lra Bool.
From Coquelicot Require Import Coquelicot.
From Flocq Require Import Core.
From Verif Require Import Py Scalars CSum DFT Spec M_base M_stft M_reas M_post M_dom M_gen1 M_gen2 M_gen3 M_gallery M_docs P_base P_stft T_putils T_stft T_dom T_gen1 T_gen2 T_key T_tone T_gallery.
Import ListNotations.
Local Open Scope Z_scope.

(** With an int the generators are those of M_gen2.v. *)
Lemma zceil_cdiv n k : k <> 0 -> Zceil (IZR n / IZR k) = cdiv n k.
Proof.
  intros Hk. unfold Zceil, cdiv. f_equal. rewrite <- (Zfloor_div (- n) k Hk). f_equal. rewrite opp_IZR. field. now apply not_0_IZR.
Qed.
Lemma blocks_int rand n k : blocks rand n (NInt k) = if k =? 0 then Raise ZeroDivisionError else draw rand (cdiv n k).
Proof.
  unfold blocks, nval. destruct (Z.eqb_spec k 0) as [->|Hk].
  - destruct (Req_EM_T 0 0); [reflexivity|congruence].
  - destruct (Req_EM_T (IZR k) 0) as [E|_]; [exfalso; revert E; now apply not_0_IZR|]. now rewrite zceil_cdiv.
Qed.
Lemma c58_number : forall rand n k f0 nbf,
  anaask_num rand n (NInt k) f0 = anaask rand n (Some k) f0 /\ anabpsk_num rand n (NInt k) f0 = anabpsk rand n (Some k) f0 /\
  anaqpsk_num rand n (NInt k) f0 = anaqpsk rand n (Some k) f0 /\ anafsk_num rand n (NInt k) (NInt nbf) = anafsk rand n (Some k) nbf /\
  anafsk_num rand n (NInt k) (NFloat (IZR nbf)) = anafsk rand n (Some k) nbf.
Proof.
  intros rand n k f0 nbf.
  assert (K : forall jump d, keyed_num rand jump n (NInt k) f0 = keyed rand jump d n (Some k) f0).
  { intros jump d. unfold keyed_num, keyed. rewrite blocks_int. destruct (Rlt_dec f0 0); [reflexivity|]. destruct (Rlt_dec (1 / 2) f0); [reflexivity|]. destruct (k =? 0); reflexivity. }
  assert (F : forall c, nval c = IZR nbf -> anafsk_num rand n (NInt k) c = anafsk rand n (Some k) nbf).
  { intros c E. unfold anafsk_num, anafsk. rewrite blocks_int, E. destruct (k =? 0); [reflexivity|]. destruct (draw rand (cdiv n k)); [|reflexivity]. cbn [bind].
    destruct (Z.eqb_spec nbf 0) as [->|Hb]; [destruct (Req_EM_T 0 0); [reflexivity|congruence]|]. destruct (Req_EM_T (IZR nbf) 0) as [Q|_]; [exfalso; revert Q; now apply not_0_IZR|]. reflexivity. }
  split; [apply K|]. split; [apply K|]. split; [|split; now apply F].
  unfold anaqpsk_num, anaqpsk. rewrite blocks_int. destruct (Rlt_dec f0 0); [reflexivity|]. destruct (Rlt_dec (1 / 2) f0); [reflexivity|]. destruct (k =? 0); reflexivity.
Qed.

Lemma zceil_neg v : (Zceil v < 0) <-> (v <= -1)%R.
Proof.
  split; intros H.
  - assert (B := Zceil_ub v). apply Rle_trans with (1 := B). apply (IZR_le _ (-1)). lia.
  - destruct (Z_lt_ge_dec (Zceil v) 0) as [Q|Q]; [exact Q|exfalso]. assert (B := Zceil_glb (-1) v H). lia.
Qed.
(** With a float they raise whatever the other arguments. *)
Definition float_error (n : Z) (r : R) : exn :=
  if Req_EM_T r 0 then ZeroDivisionError else if Rle_dec (IZR n / r) (-1) then ValueError else TypeError.
Lemma c58_float : forall rand n r f0,
  let e := if Rle_dec 0 f0 then if Rle_dec f0 (1 / 2) then float_error n r else TypeError else TypeError in
  anaask_num rand n (NFloat r) f0 = Raise e /\ anabpsk_num rand n (NFloat r) f0 = Raise e /\ anaqpsk_num rand n (NFloat r) f0 = Raise e.
Proof.
  intros rand n r f0 e.
  assert (B : forall T (k : list R -> res T), (forall u, k u = Raise TypeError) -> (u <- blocks rand n (NFloat r) ;; k u) = Raise (float_error n r)).
  { intros T k Hk. unfold blocks, float_error, draw. cbn [nval]. destruct (Req_EM_T r 0); [reflexivity|].
    destruct (Z.ltb_spec (Zceil (IZR n / r)) 0) as [Q|Q]; destruct (Rle_dec (IZR n / r) (-1)) as [W|W]; cbn [bind]; auto; exfalso.
    - apply W. now apply zceil_neg.
    - apply zceil_neg in W. lia. }
  assert (K : forall jump, keyed_num rand jump n (NFloat r) f0 = Raise e).
  { intros jump. unfold keyed_num, e. destruct (Rlt_dec f0 0); [destruct (Rle_dec 0 f0); [lra|reflexivity]|]. destruct (Rle_dec 0 f0); [|lra].
    destruct (Rlt_dec (1 / 2) f0); [destruct (Rle_dec f0 (1 / 2)); [lra|reflexivity]|]. destruct (Rle_dec f0 (1 / 2)); [|lra]. apply B. reflexivity. }
  split; [apply K|]. split; [apply K|].
  unfold anaqpsk_num, e. destruct (Rlt_dec f0 0); [destruct (Rle_dec 0 f0); [lra|reflexivity]|]. destruct (Rle_dec 0 f0); [|lra].
  destruct (Rlt_dec (1 / 2) f0); [destruct (Rle_dec f0 (1 / 2)); [lra|reflexivity]|]. destruct (Rle_dec f0 (1 / 2)); [|lra]. apply B. reflexivity.
Qed.
Lemma c58_float_fsk : forall rand n r nbf, anafsk_num rand n (NFloat r) nbf =
  Raise (match float_error n r with TypeError => if Req_EM_T (nval nbf) 0 then ZeroDivisionError else TypeError | e => e end).
Proof.
  intros rand n r nbf. unfold anafsk_num, blocks, float_error, draw. cbn [nval]. destruct (Req_EM_T r 0); [reflexivity|].
  destruct (Z.ltb_spec (Zceil (IZR n / r)) 0) as [Q|Q]; destruct (Rle_dec (IZR n / r) (-1)) as [W|W]; cbn [bind]; auto.
  - exfalso. apply W. now apply zceil_neg.
  - exfalso. apply zceil_neg in W. lia.
  - destruct (Req_EM_T (nval nbf) 0); reflexivity.
Qed.
(** Their docstrings: anaqpsk(512, 64.0, 0.05) and anafsk(512, 54.0, 5.0). *)
Example c58_docstrings_refuted : forall rand,
  anaqpsk_num rand 512 (NFloat 64) (5 / 100) = Raise TypeError /\ anafsk_num rand 512 (NFloat 54) (NFloat 5) = Raise TypeError.
Proof.
  intros rand. split.
  - destruct (c58_float rand 512 64 (5 / 100)) as (_ & _ & E). rewrite E. destruct (Rle_dec 0 (5 / 100)); [|lra]. destruct (Rle_dec (5 / 100) (1 / 2)); [|lra].
    unfold float_error. destruct (Req_EM_T 64 0); [lra|]. destruct (Rle_dec (512 / 64) (-1)); [lra|reflexivity].
  - rewrite c58_float_fsk. unfold float_error. destruct (Req_EM_T 54 0); [lra|]. destruct (Rle_dec (512 / 54) (-1)); [lra|]. cbn [nval]. destruct (Req_EM_T 5 0); [lra|reflexivity].
Qed.
