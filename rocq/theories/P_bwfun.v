(** [butterworth] computes the designs; argument validation (C59-C61). *)
From Coq Require Import Reals Lra Psatz Permutation.
From Coquelicot Require Import Complex.
From Flocq Require Import Core.Raux.
From Verif Require Import Num NpBase Lib XR M_butter Spec3 P_cx P_butter P_buttap P_design.
Local Open Scope R_scope.

(** The last lines of [butterworth]: conversion to the requested output form. *)
Definition finish {N : Num} (argsort : list N -> list nat) (output : string) (ag : bool) (f : zpk N)
  : res (design N) :=
  let '(z, p, k) := f in
  if String.eqb (lower output) "zps"%string then Ok (Zps (z, p, k))
  else if String.eqb (lower output) "nd"%string then
    let '(g, h) := xyz_to_ptf z p k in Ok (Nd g h)
  else let* s := xyz_to_sop argsort z p k None ag in Ok (Sop s).

Definition good_output (o : string) : Prop := In (lower o) ["nd"; "zps"; "sop"]%string.
Lemma good_output_b o : good_output o ->
  negb (existsb (String.eqb (lower o)) ["nd"; "zps"; "sop"]%string) = false.
Proof.
  unfold good_output. intros H. rewrite Bool.negb_false_iff. apply existsb_exists.
  exists (lower o). split; [easy|]. apply String.eqb_refl.
Qed.

Lemma pos_check l : (forall w, In w l -> 0 < w) ->
  existsb (fun v => @nleb XR v (@nofZ XR 0)) (fins l) = false.
Proof.
  intros H. destruct (existsb _ _) eqn:E; [|easy]. apply existsb_exists in E as [v [Hv E]].
  unfold fins in Hv. apply in_map_iff in Hv as [w [<- Hw]]. specialize (H _ Hw).
  change (Rle_bool w 0 = true) in E. rewrite Rle_bool_false in E by lra. easy.
Qed.
Lemma lt1_check l : (forall w, In w l -> w < 1) ->
  existsb (fun v => @nleb XR (@nofZ XR 1) v) (fins l) = false.
Proof.
  intros H. destruct (existsb _ _) eqn:E; [|easy]. apply existsb_exists in E as [v [Hv E]].
  unfold fins in Hv. apply in_map_iff in Hv as [w [<- Hw]]. specialize (H _ Hw).
  change (Rle_bool 1 w = true) in E. rewrite Rle_bool_false in E by lra. easy.
Qed.
Lemma band_pos b : band_ok b -> forall w, In w (band_freqs b) -> 0 < w.
Proof.
  intros Hb w Hw. destruct b; cbn in *; intuition (subst; lra).
Qed.
Lemma order_check b : band_ok b ->
  match fins (band_freqs b) with w0 :: w1 :: _ => negb (@nltb XR w0 w1) | _ => false end = false.
Proof.
  destruct b as [w|w|w1 w2|w1 w2]; cbn [band_freqs fins map band_ok]; try easy; intros [_ H];
  change (negb (Rlt_bool w1 w2) = false); now rewrite Rlt_bool_true.
Qed.

Lemma select_transform b s n (dcf : R -> R) (w : list XR) : lower s = band_name b ->
  length w = length (band_freqs b) ->
  (if String.eqb (lower s) "lp"%string then
        match w, fins (map dcf (band_freqs b)) with
        | [_], [d] => @low_to_low XR [] (cfs (proto_poles n)) (Fin 1) d
        | _, _ => Raise ValueError
        end
      else if String.eqb (lower s) "hp"%string then
        match w, fins (map dcf (band_freqs b)) with
        | [_], [d] => @low_to_high XR [] (cfs (proto_poles n)) (Fin 1) d
        | _, _ => Raise ValueError
        end
      else if String.eqb (lower s) "bp"%string then
        match fins (map dcf (band_freqs b)) with
        | d0 :: d1 :: _ => @low_to_band XR [] (cfs (proto_poles n)) (Fin 1)
                             (@nsqrt XR (@nmul XR d0 d1)) (@nsub XR d1 d0)
        | _ => Raise ValueError
        end
      else if String.eqb (lower s) "bs"%string then
        match fins (map dcf (band_freqs b)) with
        | d0 :: d1 :: _ => @low_to_stop XR [] (cfs (proto_poles n)) (Fin 1)
                             (@nsqrt XR (@nmul XR d0 d1)) (@nsub XR d1 d0)
        | _ => Raise ValueError
        end
      else Raise NotImplementedError)
  = transform (band_map dcf b) [] (cfs (proto_poles n)) (Fin 1).
Proof.
  intros E HL. rewrite E.
  destruct b as [x|x|w1 w2|w1 w2]; cbn [band_name String.eqb Ascii.eqb Bool.eqb band_freqs map fins band_map transform length] in *;
  try (destruct w as [|? [|]]; [easy| |easy]); reflexivity.
Qed.

Section Butter.
Variable argsort : list XR -> list nat.

Lemma butterworth_analog b n s o : band_ok b -> lower s = band_name b -> good_output o ->
  butterworth argsort (Fin (INR n)) (fins (band_freqs b)) s true o (@SrNone XR)
  = finish argsort o true (cfs (fst (fst (adesign b n))), cfs (snd (fst (adesign b n))),
                           Fin (snd (adesign b n))).
Proof.
  intros Hb Hs Ho. unfold butterworth. cbn [valid_g bind].
  rewrite pos_check by now apply band_pos.
  rewrite order_check by easy. rewrite good_output_b by easy.
  rewrite buttap_ok. cbn [bind negb].
  pose proof (select_transform b s n (fun x => x) (fins (band_freqs b)) Hs) as S.
  rewrite map_id in S. rewrite S by (unfold fins; now rewrite map_length).
  replace (band_map (fun x => x) b) with b by now destruct b.
  rewrite transform_ok by easy. reflexivity.
Qed.

Lemma tan_fins l : map (fun v => @nmul XR (@nmul XR (@nofZ XR 2) (@nofZ XR 2))
     (@ntan XR (@ndiv XR (@nmul XR (@npi XR) v) (@nofZ XR 2)))) (fins l) = fins (map warp l).
Proof.
  unfold fins. rewrite !map_map. apply map_ext. intros w.
  change (@npi XR) with (Fin PI). change (@nofZ XR 2) with (Fin 2).
  rewrite !xmul_fin, xdiv_ok by lra. change (@ntan XR (Fin (PI * w / 2))) with (Fin (tan (PI * w / 2))).
  rewrite xmul_fin. apply f_equal. unfold warp. ring.
Qed.

Lemma band_freqs_map f b : band_freqs (band_map f b) = map f (band_freqs b).
Proof. now destruct b. Qed.

Lemma butterworth_digital_gen b n s o sr w : digital_ok b -> lower s = band_name b -> good_output o ->
  match @valid_g XR sr true with
  | Ok (Some f) => map (fun v => @ndiv XR (@nmul XR (@nofZ XR 2) v) f) w = fins (band_freqs b)
  | Ok None => w = fins (band_freqs b)
  | Raise _ => False
  end ->
  butterworth argsort (Fin (INR n)) w s false o sr
  = finish argsort o false (cfs (fst (fst (ddesign b n))), cfs (snd (fst (ddesign b n))),
                           Fin (snd (ddesign b n))).
Proof.
  intros Hb Hs Ho Hw. unfold butterworth.
  destruct (valid_g sr true) as [osr|e]; [|easy]. cbn [bind].
  assert (E : (match osr with
     | Some f => @Ok (list XR) (map (fun v => @ndiv XR (@nmul XR (@nofZ XR 2) v) f) w)
     | None => Ok w end) = Ok (fins (band_freqs b))).
  { destruct osr; now rewrite Hw. }
  rewrite E. cbn [bind].
  destruct Hb as [Hb H1].
  rewrite pos_check by now apply band_pos.
  rewrite order_check by easy. rewrite good_output_b by easy.
  rewrite buttap_ok. cbn [bind negb orb]. rewrite lt1_check by easy. cbn [bind].
  rewrite tan_fins.
  rewrite select_transform by (try easy; unfold fins; now rewrite map_length).
  rewrite transform_ok by (apply warp_ok; easy). cbn [bind].
  rewrite bilinear_design by easy. reflexivity.
Qed.

Lemma butterworth_digital b n s o : digital_ok b -> lower s = band_name b -> good_output o ->
  butterworth argsort (Fin (INR n)) (fins (band_freqs b)) s false o (@SrNone XR)
  = finish argsort o false (cfs (fst (fst (ddesign b n))), cfs (snd (fst (ddesign b n))),
                           Fin (snd (ddesign b n))).
Proof. intros. now apply butterworth_digital_gen. Qed.

Lemma butterworth_digital_sr b n s o fs : fs <> 0 ->
  digital_ok (band_map (fun w => 2 * w / fs) b) -> lower s = band_name b -> good_output o ->
  butterworth argsort (Fin (INR n)) (fins (band_freqs b)) s false o (@SrScalar XR (Fin fs))
  = finish argsort o false (cfs (fst (fst (ddesign (band_map (fun w => 2 * w / fs) b) n))),
                            cfs (snd (fst (ddesign (band_map (fun w => 2 * w / fs) b) n))),
                            Fin (snd (ddesign (band_map (fun w => 2 * w / fs) b) n))).
Proof.
  intros Hf Hb Hs Ho. apply butterworth_digital_gen; try easy.
  - rewrite Hs. now destruct b.
  - cbn [valid_g]. rewrite band_freqs_map. unfold fins. rewrite !map_map. apply map_ext.
    intros w. change (@nofZ XR 2) with (Fin 2). rewrite xmul_fin, xdiv_ok by easy. reflexivity.
Qed.
End Butter.

(** ** Consequences *)
Definition butter_zps (argsort : list XR -> list nat) (b : band) (n : nat) (ag : bool)
  (zs ps : list C) (k : R) : Prop :=
  forall s o, lower s = band_name b -> lower o = "zps"%string ->
  butterworth argsort (Fin (INR n)) (fins (band_freqs b)) s ag o (@SrNone XR)
  = Ok (Zps (cfs zs, cfs ps, Fin k)).

Lemma butter_zps_analog argsort b n : band_ok b ->
  butter_zps argsort b n true (fst (fst (adesign b n))) (snd (fst (adesign b n))) (snd (adesign b n)).
Proof.
  intros Hb s o Hs Ho. rewrite butterworth_analog by (try easy; unfold good_output; rewrite Ho; cbn; tauto).
  unfold finish. rewrite Ho. reflexivity.
Qed.
Lemma butter_zps_digital argsort b n : digital_ok b ->
  butter_zps argsort b n false (fst (fst (ddesign b n))) (snd (fst (ddesign b n))) (snd (ddesign b n)).
Proof.
  intros Hb s o Hs Ho. rewrite butterworth_digital by (try easy; unfold good_output; rewrite Ho; cbn; tauto).
  unfold finish. rewrite Ho. reflexivity.
Qed.
