(** Lemmas for C131. *)
From Coq Require Import Reals ZArith List String Lia Lra.
From Flocq Require Import IEEE754.BinarySingleNaN.
From Verif Require Import Base PixelBuffer BufferSpec F32 F32Lemmas Color ColorSpec ColorProofs MeaningSpec DrawSpec LanczosSpec Image Commands CliSpec PySpec PyImage PyColor Names ScriptSpec MethodSpec.
From Verif Require Text.
From Verif Require Import ColorThm OpMeaningThm HueThm DrawMeanThm CliProofs PyThm ScriptProofs.
Import ListNotations.
Open Scope R_scope.

Lemma in01_fin x : in01 x -> is_finite x = true.
Proof. intros [A B]. destruct x as [s|[|]| |s m e P]; try reflexivity; discriminate. Qed.

Lemma to_gray_is c : to_gray c = to_gray_with_intensity Rec709Luma c. Proof. reflexivity. Qed.
Lemma gray_method L n i c : called intensity_names n "rec709luma" i -> py_method_call L (ToGray n) c = ROk (to_gray_with_intensity i c).
Proof.
  intros H. cbn [py_method_call]. unfold Text.py_to_gray. destruct n as [s|].
  - apply (proj1 intensity_named) in H. cbn [given] in H. rewrite H. reflexivity.
  - apply (proj1 intensity_named) in H. cbn [given] in H. vm_compute in H. injection H as <-. reflexivity.
Qed.
Lemma unknown_gray L s c : (forall i, ~ called intensity_names (Some s) "rec709luma" i) -> py_method_call L (ToGray (Some s)) c = RErr (OSErrorName (mkPEE s "Intensity")).
Proof. intros H. cbn [py_method_call]. unfold Text.py_to_gray. rewrite (proj1 (proj2 (proj2 intensity_named)) s H). reflexivity. Qed.
Lemma called_once n i j : called intensity_names n "rec709luma" i -> called intensity_names n "rec709luma" j -> i = j.
Proof. intros A B. apply (proj1 intensity_named) in A, B. rewrite A in B. injection B as E. exact E. Qed.

Lemma method_computes L f c : in_gamut c -> reasonable L f -> exists o, py_method_call L f c = ROk o /\ method_formula L f c o.
Proof.
  intros G Q. destruct f; cbn [reasonable] in Q.
  - destruct Q as [i K]. exists (to_gray_with_intensity i c). split; [exact (gray_method L intensity i c K)|]. cbn [method_formula].
    destruct (gray_formula i (B2R (d0 c)) (B2R (d1 c)) (B2R (d2 c))) as [y|] eqn:E.
    + destruct (gray i c y G E) as [A B]. split; [exact B|]. intros j J. rewrite (called_once _ _ _ J K), E. exact A.
    + assert (i = Saturation) as -> by (destruct i; try discriminate E; reflexivity). rewrite (saturation_gray L c). cbn [d3]. split; [reflexivity|].
      intros j J. rewrite (called_once _ _ _ J K), E. pose proof (hsl_in_range c G) as (_ & S & _). change (rgb_to_hsl c) with (to_hsl L KRgb c) in S. apply in01_fin in S.
      assert (X : close 0 (B2R (d1 (to_hsl L KRgb c))) (d1 (to_hsl L KRgb c))) by (split; [exact S|]; rewrite Rminus_diag_eq, Rabs_R0 by reflexivity; lra).
      repeat split; apply X.
  - eexists. split; [reflexivity|]. exact (inverted c G).
  - eexists. split; [reflexivity|]. split; [exact (distances c color G Q)|exact (difference_is_opaque c color)].
  - eexists. split; [reflexivity|]. exact (gamma_power L gamma c (proj1 Q) G (proj2 Q)).
  - eexists. split; [reflexivity|]. exact (gamma_opt_power L gamma c (proj1 Q) G (proj2 Q)).
  - eexists. split; [reflexivity|]. destruct Q as (Q1 & Q2 & Q3 & Q4 & Q5). exact (level L black_point white_point gamma c _ Q1 G Q2 Q3 Q4 Q5 eq_refl).
  - eexists. split; [reflexivity|]. exact (brightness factor c G Q).
  - eexists. split; [reflexivity|]. exact (saturated L factor c G Q).
  - eexists. split; [reflexivity|]. exact (saturation_stretched L factor c G Q).
  - eexists. split; [reflexivity|]. destruct Q as (Q1 & Q2 & Q3). exact (saturation_gamma L gamma c Q1 Q2 G Q3).
  - eexists. split; [reflexivity|]. exact (lightened L factor c G Q).
  - eexists. split; [reflexivity|]. exact (hue_turned L radians c G (proj1 Q) (proj2 Q)).
  - eexists. split; [reflexivity|]. exact (contrast factor c G Q).
  - eexists. split; [reflexivity|]. exact (brightness_contrast brightness contrast c G (proj1 Q) (proj2 Q)).
  - eexists. split; [reflexivity|]. exact (blended c color G Q).
  - eexists. split; [reflexivity|]. destruct Q as (Q1 & Q2 & Q3). exact (vibrance_formula L factor c Q1 G Q2 Q3).
  - eexists. split; [reflexivity|]. split; [exact (sepia c G)|]. destruct G as (_ & _ & _ & A). exact (clamp_id _ A).
  - eexists. split; [reflexivity|]. destruct Q as (Q1 & Q2 & Q3). exact (modulated L hue saturation lightness c G Q1 Q2 Q3).
Qed.

Lemma methods_run L f l : (forall c, In c l -> in_gamut c) -> reasonable L f ->
  exists d, runs (call_ok (fun (_ : unit) c => Ok (tt, py_method_call L f c))) tt l tt d /\ Forall2 (method_formula L f) l d.
Proof.
  intros G Q. induction l as [|c l IH]; [exists []; split; constructor|].
  destruct IH as (d & A & B); [intros x I; apply G; right; exact I|]. destruct (method_computes L f c (G c (or_introl eq_refl)) Q) as (o & E & F).
  exists (o :: d). split; [|constructor; assumption]. apply runs_cons with tt; [|exact A]. unfold call_ok. rewrite E. reflexivity.
Qed.
Lemma methods_images L f i : (forall c, In c (data (buffer i)) -> in_gamut c) -> reasonable L f -> exists d,
  py_mod_colors (fun (_ : unit) c => Ok (tt, py_method_call L f c)) tt i = Ok (tt, same_with i d, ROk tt) /\
  py_map_colors (fun (_ : unit) c => Ok (tt, py_method_call L f c)) tt i = Ok (tt, ROk (same_with i d)) /\
  Forall2 (method_formula L f) (data (buffer i)) d.
Proof.
  intros G Q. destruct (methods_run L f (data (buffer i)) G Q) as (d & A & B). exists d.
  split; [apply python_mod_colors; exists d; split; [reflexivity|exact A]|]. split; [apply python_map_colors; exists d; split; [reflexivity|exact A]|exact B].
Qed.
Lemma command_computes {R} (e : env R) cmd f i w : colour_method cmd f -> (forall c, In c (data (buffer i)) -> in_gamut c) -> reasonable (e_libm e) f ->
  exists d, execute_cmd e cmd (Some i) w = Ok (Some (same_with i d), w, ROk tt) /\ Forall2 (method_formula (e_libm e) f) (data (buffer i)) d.
Proof.
  intros H G Q. destruct (method_of (e_libm e) cmd f H) as (g & E & P). exists (map g (data (buffer i))).
  split; [exact (execute_pixels e cmd g i w E)|]. induction (data (buffer i)) as [|c l IH]; [constructor|]. cbn [map].
  constructor; [|apply IH; intros x I; apply G; right; exact I].
  destruct (method_computes (e_libm e) f c (G c (or_introl eq_refl)) Q) as (o & K & F). rewrite P in K. injection K as <-. exact F.
Qed.
