(** Proofs about opening and saving again and again (C117). *)
From Coq Require Import Reals ZArith List Bool String Ascii Lia Lra.
From Flocq Require Import Core.Core IEEE754.BinarySingleNaN.
From Verif Require Import Base BaseLemmas PixelBuffer BufferSpec PixelBufferProofs F32 F32Lemmas Color ColorSpec ColorProofs MeaningSpec Approx OpMeaningProofs HslMeaning HslOps
  Codec CodecSpec Image QuantProofs LayoutProofs DecodeProofs RoundTripProofs SrgbMeaning SrgbSamples ReopenSpec ReopenProofs ResaveSpec ResaveHints PowProofs CodecThm ImageThm.
Import ListNotations.
Open Scope R_scope.

Fixpoint all_with {A H} (f : H -> A -> bool) (l : list A) (hs : list H) : bool :=
  match l, hs with
  | [], _ => true
  | a :: l, h :: hs => f h a && all_with f l hs
  | _, _ => false
  end.
Lemma all_with_ok {A H} (f : H -> A -> bool) l hs a : all_with f l hs = true -> In a l -> exists h, f h a = true.
Proof.
  revert hs. induction l as [|b l IH]; intros [|h hs] E I; try destruct I; try discriminate E; cbn [all_with] in E; apply andb_true_iff in E as [E1 E2].
  - subst b. eauto.
  - eauto.
Qed.
Definition sure (T : Z) (h : hint) (d : png_depth) (v w : Z) : bool :=
  let q := match d with Eight => quant8 | Sixteen => quant16 end in
  let x := fdiv (ofZ v) (ofZ (max_sample d)) in
  let encoded h l :=
    if flt (dec 3130805 1000000000) l then
      fle l f1 && match cands T h l (fdiv f1 (dec 24 10)) with
      | Some ps => forallb (fun p => (q (clamp (fsub (fmul (dec 1055 1000) p) (dec 55 1000))) =? w)%Z) ps
      | None => false
      end
    else (q (clamp (fmul (dec 1292 100) l)) =? w)%Z in
  if flt (dec 4045 100000) x then
    let b := fdiv (fadd x (dec 55 1000)) (dec 1055 1000) in
    fle b f1 && match cands T (fst h) b (dec 24 10) with Some ls => all_with (fun h l => encoded h (clamp l)) ls (snd h) | None => false end
  else encoded (hd (0, 0, 0)%Z (snd h)) (clamp (fdiv x (dec 1292 100))).

Local Opaque cands fdiv fadd fsub fmul dec quant8 quant16 clamp flt fle powf.
Lemma cand_in T L h x y l : (0 <= T < 127)%Z -> powf_within T L -> fle x f1 = true -> cands T h x y = Some l -> In (powf L x y) l.
Proof.
  intros HT PW F C. apply (cands_ok T L h x y l HT PW); [|exact C].
  assert (Fx : fin x). { Local Transparent cands. unfold cands in C. destruct x; try discriminate C. reflexivity. }
  apply fle_R in F; [|exact Fx|reflexivity]. rewrite f1_R in F. exact F.
Qed.
Local Opaque cands.
Lemma sure_ok T L h d v w : (0 <= T < 127)%Z -> powf_within T L -> sure T h d v w = true -> requant L d v = w.
Proof.
  intros HT PW. unfold sure, requant. set (q := match d with Eight => quant8 | Sixteen => quant16 end). set (x := fdiv (ofZ v) (ofZ (max_sample d))).
  clearbody q x.
  assert (S : forall h l, (if flt (dec 3130805 1000000000) l then
      fle l f1 && match cands T h l (fdiv f1 (dec 24 10)) with
      | Some ps => forallb (fun p => (q (clamp (fsub (fmul (dec 1055 1000) p) (dec 55 1000))) =? w)%Z) ps
      | None => false
      end
    else (q (clamp (fmul (dec 1292 100) l)) =? w)%Z) = true -> q (clamp (linear_to_gamma L l)) = w).
  { intros g l. unfold linear_to_gamma. destruct (flt (dec 3130805 1000000000) l); [|intros H; apply Z.eqb_eq in H; exact H].
    intros H. apply andb_true_iff in H as [F H]. destruct (cands T g l (fdiv f1 (dec 24 10))) as [ps|] eqn:C; [|discriminate H].
    rewrite forallb_forall in H. specialize (H _ (cand_in T L g l _ ps HT PW F C)). apply Z.eqb_eq in H. exact H. }
  unfold gamma_to_linear. destruct (flt (dec 4045 100000) x); [|apply (S (hd (0, 0, 0)%Z (snd h)))].
  intros H. apply andb_true_iff in H as [F H]. destruct (cands T (fst h) (fdiv (fadd x (dec 55 1000)) (dec 1055 1000)) (dec 24 10)) as [ls|] eqn:C; [|discriminate H].
  destruct (all_with_ok _ _ _ _ H (cand_in T L (fst h) _ _ ls HT PW F C)) as [g G]. apply (S g), G.
Qed.
Local Transparent cands fdiv fadd fsub fmul dec quant8 quant16 clamp flt fle.
Lemma sweep_lost : forallb (fun v => sure 112 (nth (Z.to_nat (v - 39)) hints_lost (0, 0, 0, [])%Z) Eight v (v - 1)%Z) (zrange 39 64) = true.
Proof. vm_cast_no_check (eq_refl true). Qed.
Lemma sweep_all : forallb (fun v => sure 66 (nth (Z.to_nat v) hints_all (0, 0, 0, [])%Z) Eight v (if existsb (Z.eqb v) lowered8 then v - 1 else v)%Z) (zrange 0 255) = true.
Proof. vm_cast_no_check (eq_refl true). Qed.
Lemma requant_lost L v : powf_within 112 L -> (39 <= v <= 63)%Z -> requant L Eight v = (v - 1)%Z.
Proof.
  intros PW V. pose proof sweep_lost as S. rewrite forallb_forall in S. eapply (sure_ok 112 L _ Eight v _ ltac:(lia) PW), (S v). apply zrange_In. lia.
Qed.
Lemma requant_all L v : powf_within 66 L -> (0 <= v <= 254)%Z -> requant L Eight v = (if existsb (Z.eqb v) lowered8 then v - 1 else v)%Z.
Proof.
  intros PW V. pose proof sweep_all as S. rewrite forallb_forall in S. eapply (sure_ok 66 L _ Eight v _ ltac:(lia) PW), (S v). apply zrange_In. lia.
Qed.

(** ** Generations *)
Local Opaque requant requant_gray.
Lemma one_generation m E D L ct comp filter w h bytes raw : ct <> PL16 -> lossless_png E D -> (0 < w)%Z -> (0 < h)%Z -> valid_size w h ->
  let color := fst (fst (png_promise L ct)) in let d := snd (fst (png_promise L ct)) in
  holds_png D color d w h bytes raw ->
  exists bytes' raw', (forall n, resaved m E D L (EPng ct comp filter) (S n) bytes = resaved m E D L (EPng ct comp filter) n bytes') /\
    holds_png D color d w h bytes' raw' /\
    forall i k, (0 <= i < w * h)%Z -> (0 <= k < channels color)%Z -> exists v, sample d raw (i * channels color + k) = Ok v /\ (0 <= v <= max_sample d)%Z /\
      sample d raw' (i * channels color + k) = Ok (if alpha_channel color k then v else if is_gray color then requant_gray L d v else requant L d v).
Proof.
  intros N LP W H VS color d (img & SG & DE & WI & HI & LA & NF & Z & B).
  assert (VI : valid_size (png_width img) (png_height img)) by (rewrite WI, HI; exact VS).
  rewrite <- WI, <- HI in Z. pose proof NF as NF'. rewrite Z in NF'.
  destruct (round_trip m D L bytes img ct comp filter raw N DE VI LA NF' Z B) as (b & raw' & DB & J & Z' & SA).
  destruct (decode_png_ok m D L bytes img color d raw DE VI LA NF' Z B) as (b2 & DB2 & V & WB & HB & _).
  assert (EB : b2 = b) by (rewrite DB in DB2; injection DB2; auto). subst b2.
  destruct (png_layout_ok L b ct comp filter V N) as (raw2 & J2 & _ & B2 & _). rewrite J in J2. fold color d in J2.
  assert (ER : raw2 = raw') by (injection J2; auto). subst raw2.
  fold color d in J, SA. rewrite WI, HI in *. rewrite Z in Z'.
  assert (VB : (w <= 2 ^ 32 - 1 /\ h <= 2 ^ 32 - 1)%Z) by (unfold valid_size in VS; lia).
  destruct (LP color d comp filter w h raw') as (ops & img' & EO & SG' & DE' & WI' & HI' & LA' & NF2); try lia; try assumption.
  exists (output ops), raw'. split.
  { intros n. change (resaved m E D L (EPng ct comp filter) (S n) bytes) with
      (match image_read_from_buffer m D L bytes with
           | Ok (ROk i) => match image_save_to_buffer E L i (EPng ct comp filter) with ROk bytes' => resaved m E D L (EPng ct comp filter) n bytes' | RErr _ => None end
           | _ => None
           end).
    unfold image_read_from_buffer, decode_buffer. rewrite (proj2 (CodecThm.signature_exact _ _) SG), DB. cbn [bind].
    assert (MJ : make_job L (buffer (new_from_buffer b)) (EPng ct comp filter) = ROk (job_png L b ct comp filter)) by reflexivity.
    rewrite (proj2 (ImageThm.save_to_buffer E L (new_from_buffer b) (EPng ct comp filter)) _ ops true MJ) by (rewrite J; exact EO). reflexivity. }
  split; [|exact SA]. exists img'. do 7 (split; [assumption|]). exact B2.
Qed.
