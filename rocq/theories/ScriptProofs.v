(** Proofs for C128: command lines and Python programs. *)
From Coq Require Import ZArith List Bool String.
From Verif Require Import Base PixelBuffer F32 Color Resample Ops Codec Names Image Commands Cli CliSpec PySpec PyImage PyColor ScriptSpec BufferSpec.
From Verif Require Import BaseLemmas PixelBufferProofs CliProofs CliThm PyProofs.
From Verif Require Text.
Import ListNotations.
Open Scope Z_scope.

(** * Colours *)

Lemma mod_all f i : image_mod_colors (fun c => Ok (f c)) i = Ok (mkImage (mkPB (width (buffer i)) (height (buffer i)) (map f (data (buffer i)))) (bg_color i)).
Proof.
  unfold image_mod_colors, in_place_st, mod_colors.
  assert (E : forall l, map_st (fun (_ : unit) c => c <- Ok (f c); Ok (tt, c)) l tt = Ok (tt, map f l)).
  { induction l as [|a l IH]; [reflexivity|]. cbn [map_st bind] in *. rewrite IH. reflexivity. }
  rewrite E. reflexivity.
Qed.
Lemma py_mod_all {X} f i : py_mod_colors (X := X) (fun (_ : unit) c => Ok (tt, ROk (f c))) tt i =
  Ok (tt, mkImage (mkPB (width (buffer i)) (height (buffer i)) (map f (data (buffer i)))) (bg_color i), ROk tt).
Proof.
  unfold py_mod_colors, try_mod_colors.
  assert (E : forall l, try_mod_list (E := X) (fun (_ : unit) (c : Rgb) => Ok (tt, ROk (f c))) (fun p => p) tt l = Ok (tt, map f l, ROk tt)).
  { induction l as [|a l IH]; [reflexivity|]. cbn [try_mod_list bind]. rewrite IH. reflexivity. }
  rewrite E. reflexivity.
Qed.
Lemma py_map_all {X} f i : py_map_colors (X := X) (fun (_ : unit) c => Ok (tt, ROk (f c))) tt i =
  Ok (tt, ROk (mkImage (mkPB (width (buffer i)) (height (buffer i)) (map f (data (buffer i)))) (bg_color i))).
Proof.
  unfold py_map_colors, image_try_map_colors, try_map_colors.
  assert (E : forall l, try_map_st (E := X) (fun (_ : unit) (c : Rgb) => Ok (tt, ROk (f c))) l tt = Ok (tt, ROk (map f l))).
  { induction l as [|a l IH]; [reflexivity|]. cbn [try_map_st bind]. rewrite IH. reflexivity. }
  rewrite E. reflexivity.
Qed.
Lemma py_mod_ext {X} (F G : Rgb -> Result Rgb X) i : (forall c, F c = G c) ->
  py_mod_colors (fun (_ : unit) c => Ok (tt, F c)) tt i = py_mod_colors (fun (_ : unit) c => Ok (tt, G c)) tt i.
Proof.
  intros H. unfold py_mod_colors, try_mod_colors. f_equal. f_equal.
  induction (data (buffer i)) as [|a l IH]; [reflexivity|]. cbn [try_mod_list bind]. rewrite H, IH. reflexivity.
Qed.
Lemma py_map_ext {X} (F G : Rgb -> Result Rgb X) i : (forall c, F c = G c) ->
  py_map_colors (fun (_ : unit) c => Ok (tt, F c)) tt i = py_map_colors (fun (_ : unit) c => Ok (tt, G c)) tt i.
Proof.
  intros H. unfold py_map_colors, image_try_map_colors, try_map_colors. f_equal. f_equal.
  induction (data (buffer i)) as [|a l IH]; [reflexivity|]. cbn [try_map_st bind]. rewrite H, IH. reflexivity.
Qed.

Lemma method_of L c f : colour_method c f -> exists g, CommandsSpec.pixel_function L c = Some g /\ forall p, py_method_call L f p = ROk (g p).
Proof.
  intros H. destruct H; try (eexists; split; [reflexivity|intros p; reflexivity]).
  exists (to_gray_with_intensity i). split; [reflexivity|]. intros p. cbn [py_method_call]. unfold Text.py_to_gray. destruct n as [s|].
  - apply (proj1 intensity_named) in H. cbn [given] in H. rewrite H. reflexivity.
  - apply (proj1 intensity_named) in H. cbn [given] in H. vm_compute in H. injection H as <-. reflexivity.
Qed.
Lemma execute_pixels {R} (e : env R) c f i w : CommandsSpec.pixel_function (e_libm e) c = Some f ->
  execute_cmd e c (Some i) w = Ok (Some (mkImage (mkPB (width (buffer i)) (height (buffer i)) (map f (data (buffer i)))) (bg_color i)), w, ROk tt).
Proof.
  intros H. destruct c; try discriminate H; apply (f_equal (fun o => match o with Some g => g | None => f end)) in H; cbn [CommandsSpec.pixel_function] in H; subst f;
    cbn [execute_cmd]; unfold execute_mod, with_image; rewrite mod_all; reflexivity.
Qed.

(** * One line *)

Definition same_step {R} (q : res (outcome R)) (p : res (fs * R * Result Image py_exn)) : Prop :=
  match q, p with
  | Ok (ctx, w, ROk _), Ok (s, r, ROk i) => w_fs w = s /\ w_rng w = r /\ ctx = Some i
  | Ok (_, w, RErr a), Ok (s, r, RErr b) => w_fs w = s /\ w_rng w = r /\ same_end (RErr a) (RErr b)
  | Panic, Panic => True
  | _, _ => False
  end.
Lemma noise_step {R} (f : R -> Image -> res (R * Image)) i (w : world R) :
  same_step (execute_noise f (Some i) w) ('(r, j) <- f (w_rng w) i; Ok (w_fs w, r, ROk j)).
Proof. unfold execute_noise, with_image. destruct (f (w_rng w) i) as [[r j]|]; cbn [bind same_step]; [|exact I]. repeat split. Qed.
Lemma meta_same {S} (i : Image) (r : res (S * PixelBuffer Rgb)) : in_place_st i r = with_meta_st i r.
Proof. reflexivity. Qed.
Lemma line_step {R} (e : env R) c l i w : same_line c l -> same_step (execute_cmd e c (Some i) w) (run_line e l (w_fs w) (w_rng w) i).
Proof.
  intros H. destruct H as [path|path|c f H|c f H|a n f H|v|v|v|v|v|v]; cbn [run_line]; cbv zeta.
  - cbn [execute_cmd]. unfold execute_open, py_open. destruct (image_open _ _ _ _ _) as [[j|x]|]; cbn [bind same_step]; [repeat split|repeat split; constructor|exact I].
  - cbn [execute_cmd]. unfold execute_save, py_save, with_image. destruct (image_save _ _ _ _ _) as [s [u|x]]; cbn [same_step]; repeat split; constructor.
  - destruct (method_of (e_libm e) c f H) as (g & P & M). rewrite (execute_pixels e c g i w P), (py_mod_ext _ (fun c => ROk (g c))) by exact M.
    rewrite py_mod_all. cbn [bind same_step]. repeat split.
  - destruct (method_of (e_libm e) c f H) as (g & P & M). rewrite (execute_pixels e c g i w P), (py_map_ext _ (fun c => ROk (g c))) by exact M.
    rewrite py_map_all. cbn [bind same_step]. repeat split.
  - cbn [execute_cmd py_run]. unfold with_image.
    assert (N : py_name_or parse_filter_mode n Bilinear = ROk f).
    { unfold py_name_or, py_name. unfold called in H. destruct n as [s|]; cbn [given] in H.
      - apply (proj1 (proj1 (proj2 names_exact))) in H. rewrite H. reflexivity.
      - apply (proj1 (proj1 (proj2 names_exact))) in H. vm_compute in H. injection H as <-. reflexivity. }
    rewrite N. cbn [py_bind]. unfold py_ok. destruct (image_rotate _ _ a f i) as [j|]; cbn [bind same_step]; [repeat split|exact I].
  - apply (noise_step (image_random_noise (e_rng e) v) i w).
  - unfold py_add_random_noise, image_add_random_noise. rewrite meta_same. apply (noise_step (image_random_noise (e_rng e) v) i w).
  - apply (noise_step (image_salt_n_pepper_noise (e_rng e) v) i w).
  - unfold py_add_salt_n_pepper_noise, image_add_salt_n_pepper_noise. rewrite meta_same. apply (noise_step (image_salt_n_pepper_noise (e_rng e) v) i w).
  - apply (noise_step (image_rgb_noise (e_rng e) v) i w).
  - unfold py_add_rgb_noise, image_add_rgb_noise. rewrite meta_same. apply (noise_step (image_rgb_noise (e_rng e) v) i w).
Qed.

(** * All lines *)

Lemma logged {R} lg (w : world R) c : let '(_, w') := if negb (ignore_in_log c) then log_command_step lg w c else (lg, w) in w_fs w' = w_fs w /\ w_rng w' = w_rng w.
Proof. unfold log_command_step. destruct (negb (ignore_in_log c)); [|split; reflexivity]. cbn [disabled]. destruct (negb (disabled lg)); split; reflexivity. Qed.
Lemma lines_run {R} (e : env R) cs ls : same_lines cs ls -> forall i lg w, same_run (execute e cs (Some i) lg w) (run_lines e ls (w_fs w) (w_rng w) i).
Proof.
  induction 1 as [|cs ls _ IH|c cs l ls H _ IH]; intros i lg w.
  - cbn [execute run_lines same_run]. repeat split. constructor.
  - cbn [execute ignore_in_log negb execute_cmd bind]. apply IH.
  - cbn [execute run_lines]. pose proof (logged lg w c) as G. destruct (if negb (ignore_in_log c) then log_command_step lg w c else (lg, w)) as [lg' w']. destruct G as [<- <-].
    pose proof (line_step e c l i w' H) as S. destruct (execute_cmd e c (Some i) w') as [[[ctx w1] q]|], (run_line e l (w_fs w') (w_rng w') i) as [[[s r] p]|]; cbn [bind same_step] in *;
      try (destruct q; contradiction S); try contradiction S; [|exact I].
    destruct q as [u|a], p as [j|b]; try contradiction S.
    + destruct S as (<- & <- & ->). apply IH.
    + destruct S as (<- & <- & S). cbn [same_run]. repeat split. exact S.
Qed.
Lemma script_run {R} (e : env R) path cs ls w : same_lines cs ls -> same_run (queue_run e (CmdOpen path :: cs) w) (run_script e path ls (w_fs w) (w_rng w)).
Proof.
  intros H. unfold queue_run, run_script. set (n := zlen _). clearbody n. cbn [execute ignore_in_log negb]. pose proof (logged (log_new n) w (CmdOpen path)) as G. cbn [ignore_in_log negb] in G.
  destruct (log_command_step (log_new n) w (CmdOpen path)) as [lg w']. destruct G as [<- <-]. cbn [execute_cmd]. unfold execute_open, py_open.
  destruct (image_open _ _ _ _ _) as [[j|x]|]; cbn [bind same_run]; [apply lines_run, H|repeat split; constructor|exact I].
Qed.
Lemma command_line_run {R} (e : env R) text number args w path cmds lines :
  command_line text number true (tl args) (CmdOpen path :: cmds) -> same_lines cmds lines ->
  match main e text number args w, run_script e path lines (w_fs w) (w_rng w) with
  | Ok (w', r), Ok (s, rng, p) => w_fs w' = s /\ w_rng w' = rng /\
      match r with ROk _ => p = ROk tt | RErr f => exists err, f = Failed err /\ same_end (RErr err) p end
  | Panic, Panic => True
  | _, _ => False
  end.
Proof.
  intros C H. unfold main. assert (N : zlen args <> 1).
  { destruct args as [|a [|b l]]; cbn [tl] in C; [discriminate| |]; [inversion C|]. unfold zlen. cbn [List.length]. Lia.lia. }
  apply Z.eqb_neq in N. rewrite N. apply parse_iff in C. rewrite C. pose proof (script_run e path cmds lines w H) as S.
  destruct (queue_run e (CmdOpen path :: cmds) w) as [[w' a]|], (run_script e path lines (w_fs w) (w_rng w)) as [[[s r] b]|]; cbn [bind same_run] in *; try contradiction S; [|exact I].
  destruct S as (A & B & S). split; [exact A|]. split; [exact B|]. destruct a as [u|err]; [inversion S; reflexivity|]. exists err. split; [reflexivity|exact S].
Qed.

(** * Channels *)

Lemma channels_run {S X} (f : S -> f32 -> res (S * Result f32 X)) s k c s' r :
  py_map_color_channels f s (k, c) = Ok (s', r) <->
  match r with
  | ROk p => exists a b v, runs (call_ok f) s [d0 c; d1 c; d2 c] s' [a; b; v] /\ p = (k, Text.py_new k a b v (Some (d3 c)))
  | RErr x => exists pre new p post, first_error f s [d0 c; d1 c; d2 c] s' x pre new p post
  end.
Proof.
  assert (E : py_map_color_channels f s (k, c) =
    bind (try_map_st f [d0 c; d1 c; d2 c] s) (fun '(s, r) => Ok (s, match r with ROk l => ROk (k, match l with [a; b; v] => Text.py_new k a b v (Some (d3 c)) | _ => c end) | RErr x => RErr x end))).
  { unfold py_map_color_channels. cbn [fst snd]. unfold try_map_color_channels. cbn [try_map_st].
    destruct (f s (d0 c)) as [[s1 [a|x]]|]; cbn [bind]; try reflexivity. destruct (f s1 (d1 c)) as [[s2 [b|x]]|]; cbn [bind]; try reflexivity.
    destruct (f s2 (d2 c)) as [[s3 [v|x]]|]; cbn [bind]; reflexivity. }
  rewrite E. clear E. destruct r as [p|x].
  - split.
    + intros H. destruct (try_map_st f [d0 c; d1 c; d2 c] s) as [[s1 [l|x]]|] eqn:T; cbn [bind] in H; [|discriminate H|discriminate H].
      injection H as -> <-. apply try_map_st_ok in T. inversion T as [|? ? ? a ? ? ? C1 T1]; subst. inversion T1 as [|? ? ? b ? ? ? C2 T2]; subst. inversion T2 as [|? ? ? v ? ? ? C3 T3]; subst. inversion T3; subst.
      exists a, b, v. split; [exact T|reflexivity].
    + intros (a & b & v & T & ->). apply try_map_st_ok in T. rewrite T. reflexivity.
  - split.
    + intros H. destruct (try_map_st f [d0 c; d1 c; d2 c] s) as [[s1 [l|x']]|] eqn:T; cbn [bind] in H; [discriminate H| |discriminate H].
      injection H as -> ->. apply try_map_st_err in T. exact T.
    + intros T. apply try_map_st_err in T. rewrite T. reflexivity.
Qed.
