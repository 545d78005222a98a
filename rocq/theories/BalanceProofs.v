(** Proofs about balancing channels and applying palettes (C44, C46, C77). *)
From Coq Require Import ZArith List Bool Lia.
From Verif Require Import Base BaseLemmas PixelBuffer BufferSpec PixelBufferProofs F32 Color ColorSpec.
From Verif Require Import Kernel KernelSpec GaussProofs Gauss2Proofs FilterProofs Ops OpsSpec OpsProofs EqualizeProofs HistogramProofs.
Import ListNotations.
Open Scope Z_scope.

(** ** Independent columns *)
Lemma indexed_map {A} (H : Z -> A) n : 0 <= n -> indexed (map H (zrange 0 n)) = map (fun i => (i, H i)) (zrange 0 n).
Proof.
  intros Hn. unfold indexed. rewrite zlen_map, zrange_zlen, Z.sub_0_r by lia.
  induction (zrange 0 n) as [|z l IH]; [reflexivity|]. cbn. now rewrite IH.
Qed.
Lemma columns {A B} (F : Z -> A -> B -> res B) (d : B) n : 0 <= n -> forall (l : list A) (H G : Z -> B),
  (forall i, 0 <= i < n -> for_ l (F i) (H i) = Ok (G i)) ->
  for_ l (fun c result => map_res (fun '(ch, r) => F ch c r) (indexed result)) (map H (zrange 0 n)) = Ok (map G (zrange 0 n)).
Proof.
  intros Hn. induction l as [|c l IH]; intros H G E.
  - cbn. f_equal. apply map_ext_in. intros i Hi. apply zrange_In in Hi. specialize (E i ltac:(lia)). cbn in E. congruence.
  - cbn [for_]. rewrite indexed_map, map_res_map by lia.
    set (H' := fun i => match F i c (H i) with Ok r => r | Panic => d end).
    rewrite (map_res_ok _ H').
    + cbn [bind]. apply IH. intros i Hi. specialize (E i Hi). cbn [for_] in E. unfold H'.
      destruct (F i c (H i)); [exact E|discriminate].
    + intros i Hi. apply zrange_In in Hi. specialize (E i ltac:(lia)). cbn [for_] in E. unfold H'.
      destruct (F i c (H i)); [reflexivity|discriminate].
Qed.

Definition chan_of (c : col) (i : Z) : f32 := match chan c i with Ok v => v | Panic => f0 end.
Lemma chan_total c i : 0 <= i <= 3 -> chan c i = Ok (chan_of c i).
Proof. intros H. assert (D : i = 0 \/ i = 1 \/ i = 2 \/ i = 3) by lia. destruct D as [-> | [-> | [-> | ->]]]; reflexivity. Qed.

Lemma channel_values_eq L k start n (b : PixelBuffer Rgb) : 0 <= start -> 0 <= n -> start + n <= 4 ->
  channel_values L k start n b =
  Ok (map (fun i => shares (fun c => channel_bin (chan_of (convert_color L KRgb k c) (start + i))) (data b)) (zrange 0 n)).
Proof.
  intros H0 H1 H2. unfold channel_values. cbv zeta.
  assert (R : repeat (repeat f0 256) (Z.to_nat n) = map (fun _ => repeat f0 256) (zrange 0 n)).
  { apply list_ext.
    - rewrite zlen_repeat, zlen_map, zrange_zlen; lia.
    - intros i Hi. rewrite zlen_repeat in Hi. rewrite idx_repeat, idx_map, idx_zrange by lia. reflexivity. }
  rewrite R. clear R.
  apply (columns (fun i c r => x <- chan (convert_color L KRgb k c) (start + i); old <- idx r (bin x); upd r (bin x) (fadd old (fdiv f1 (ofZ (zlen (data b)))))) [] n H1).
  intros i Hi.
  rewrite (for_ext _ _ (fun c h => old <- idx h (channel_bin (chan_of (convert_color L KRgb k c) (start + i)));
     upd h (channel_bin (chan_of (convert_color L KRgb k c) (start + i))) (fadd old (fdiv f1 (ofZ (zlen (data b))))))).
  - rewrite (tally256 (fun c => channel_bin (chan_of (convert_color L KRgb k c) (start + i)))
      (fun old => fadd old (fdiv f1 (ofZ (zlen (data b)))))); [reflexivity|].
    intros a. unfold channel_bin. rewrite <- bin_eq. apply bin_range.
  - intros c h _. rewrite chan_total by lia. cbn [bind]. rewrite bin_eq. reflexivity.
Qed.

Lemma level_channel_eq L v lo hi : level_channel L v lo hi = soft_level L lo hi v.
Proof. reflexivity. Qed.

Section Balance.
  Variables (L : libm) (k : kind) (b : PixelBuffer Rgb) (threshold : f32).
  Hypothesis V : valid b.
  Notation t := (fdiv threshold (ofZ 1000)).
  Notation sh := (fun pick => shares (fun c => channel_bin (pick (convert_color L KRgb k c))) (data b)).
  Notation lo := (fun pick => get_min_value (sh pick) t).
  Notation hi := (fun pick => get_max_value (sh pick) t).

  Lemma balance3 : balance_buffer L k 0 3 b threshold = Ok (convert (fun c =>
      let c := convert_color L KRgb k c in
      to_rgb L k (mkC (soft_level L (lo d0) (hi d0) (d0 c)) (soft_level L (lo d1) (hi d1) (d1 c))
                      (soft_level L (lo d2) (hi d2) (d2 c)) (d3 c))) b).
  Proof.
    unfold balance_buffer. cbv zeta. rewrite channel_values_eq by lia. cbn [bind].
    match goal with |- _ = Ok (convert ?g b) => rewrite (map_total _ g) end; [reflexivity|].
    intros c _. cbv zeta. reflexivity.
  Qed.
  Lemma balance02 : balance_buffer L k 0 2 b threshold = Ok (convert (fun c =>
      let c := convert_color L KRgb k c in
      to_rgb L k (mkC (soft_level L (lo d0) (hi d0) (d0 c)) (soft_level L (lo d1) (hi d1) (d1 c)) (d2 c) (d3 c))) b).
  Proof.
    unfold balance_buffer. cbv zeta. rewrite channel_values_eq by lia. cbn [bind].
    match goal with |- _ = Ok (convert ?g b) => rewrite (map_total _ g) end; [reflexivity|].
    intros c _. cbv zeta. reflexivity.
  Qed.
  Lemma balance12 : balance_buffer L k 1 2 b threshold = Ok (convert (fun c =>
      let c := convert_color L KRgb k c in
      to_rgb L k (mkC (d0 c) (soft_level L (lo d1) (hi d1) (d1 c)) (soft_level L (lo d2) (hi d2) (d2 c)) (d3 c))) b).
  Proof.
    unfold balance_buffer. cbv zeta. rewrite channel_values_eq by lia. cbn [bind].
    match goal with |- _ = Ok (convert ?g b) => rewrite (map_total _ g) end; [reflexivity|].
    intros c _. cbv zeta. reflexivity.
  Qed.
End Balance.
