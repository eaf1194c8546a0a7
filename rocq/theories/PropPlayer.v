(** Property C51: the player shows the frames of a file, each decoded once and
    in order. *)
From Verif Require Import Base BoolCoderModel ChunkModel ContainerModel ChunkProofs ContainerProofs PropContainer FrameModel RasterModel ReconModel ReconProofs.
From Verif Require Import PropPicture StateModel StateProofs PropState SerialModel IvfModel IvfProofs PropIvf PlayerModel.

(** What happens to frames [no], [no + 1], ..., [no + n - 1] of a file when
    they are handed to a decoder one after the other. *)
Definition handle (v : ivf) (pool : Z -> raster) (d : decoder) (i : Z) : decoder * outcome :=
  match ivf_frame v i with
  | Ok c => get_frame_output d c (pool i)
  | Err RangeError => (d, Raised FRange)
  | Err Undefined => (d, Raised FAbort)
  end.
Fixpoint watch (v : ivf) (pool : Z -> raster) (d : decoder) (no : Z) (n : nat) : decoder * list outcome :=
  match n with
  | O => (d, [])
  | S n' =>
      let '(d1, o) := handle v pool d no in
      let '(d2, os) := watch v pool d1 (no + 1) n' in
      (d2, o :: os)
  end.
Definition hidden (o : outcome) : Prop := exists r, o = Output false r.

Lemma watch_length v pool : forall n d no, length (snd (watch v pool d no n)) = n.
Proof.
  induction n as [|n IH]; intros d no; cbn [watch]; [reflexivity|]. destruct (handle v pool d no) as [d1 o].
  specialize (IH d1 (no + 1)). destruct (watch v pool d1 (no + 1) n). cbn [snd] in *. cbn. congruence.
Qed.
Lemma watch_split v pool : forall n m d no,
  watch v pool d no (n + m) =
  let '(d1, os) := watch v pool d no n in let '(d2, os') := watch v pool d1 (no + Z.of_nat n) m in (d2, os ++ os').
Proof.
  induction n as [|n IH]; intros m d no; cbn [watch plus].
  - replace (no + Z.of_nat 0) with no by lia. destruct (watch v pool d no m). reflexivity.
  - destruct (handle v pool d no) as [d1 o]. rewrite IH. destruct (watch v pool d1 (no + 1) n) as [d2 os].
    replace (no + 1 + Z.of_nat n) with (no + Z.of_nat (S n)) by lia. destruct (watch v pool d2 (no + Z.of_nat (S n)) m). reflexivity.
Qed.

(** This is what the decoder does to the frames of a file that has them all. *)
Theorem C51_watch_is_decoding :
  forall v pool d no cs, (forall k c, nth_error cs k = Some c -> ivf_frame v (no + Z.of_nat k) = Ok c) ->
  watch v pool d no (length cs) = run_frames d (combine cs (map (fun k => pool (no + Z.of_nat k)) (seq 0 (length cs)))).
Proof.
  intros v pool d no cs. revert d no. induction cs as [|c cs IH]; intros d no R; cbn [length watch seq map combine run_frames]; [reflexivity|].
  unfold handle. pose proof (R 0%nat c eq_refl) as R0. replace (no + Z.of_nat 0) with no in * by lia. rewrite R0.
  destruct (get_frame_output d c (pool no)) as [d1 o]. rewrite (IH d1 (no + 1)).
  2: { intros k x E. replace (no + 1 + Z.of_nat k) with (no + Z.of_nat (S k)) by lia. apply R. exact E. }
  rewrite <- seq_shift, map_map.
  rewrite (map_ext (fun k => pool (no + 1 + Z.of_nat k)) (fun k => pool (no + Z.of_nat (S k)))); [reflexivity|].
  intros k. f_equal. lia.
Qed.

(** ** Opening *)

(** Frame i of the file says of itself that it is (or is not) a key frame. *)
Definition says_key (v : ivf) (i : Z) (key : bool) : Prop :=
  exists c u, ivf_frame v i = Ok c /\ uncompressed_chunk c (iv_width v) (iv_height v) false = Ok u /\ uc_key u = key.
(** Frame i cannot be taken apart. *)
Definition unreadable (v : ivf) (i : Z) (e : frame_error) : Prop :=
  (ivf_frame v i = Err RangeError /\ e = FRange) \/ (ivf_frame v i = Err Undefined /\ e = FAbort) \/
  exists c x, ivf_frame v i = Ok c /\ uncompressed_chunk c (iv_width v) (iv_height v) false = Err x /\ e = uc_frame_error x.

Lemma seek_spec v d : ds_w (dc_state d) = iv_width v -> ds_h (dc_state d) = iv_height v -> dc_conceal d = false ->
  forall f no, (Z.to_nat (iv_count v - no) <= f)%nat -> 0 <= no <= iv_count v ->
  match seek f d v no with
  | Ok k => no <= k <= iv_count v /\ (forall i, no <= i < k -> says_key v i false) /\ (k < iv_count v -> says_key v k true)
  | Err e => exists k x, e = PFrame x /\ no <= k < iv_count v /\ (forall i, no <= i < k -> says_key v i false) /\ unreadable v k x
  end.
Proof.
  intros EW EH EC. induction f as [|f IH]; intros no Hf Hn; cbn [seek].
  - destruct (Z.ltb_spec no (iv_count v)); [lia|]. split; [lia|]. split; [intros; lia|lia].
  - destruct (Z.ltb_spec no (iv_count v)); [|split; [lia|]; split; [intros; lia|lia]].
    unfold fetch. destruct (ivf_frame v no) as [c|[|]] eqn:EF.
    2,3: exists no; eexists; split; [reflexivity|]; split; [lia|]; split; [intros; lia|]; unfold unreadable; auto.
    rewrite EW, EH, EC. destruct (uncompressed_chunk c (iv_width v) (iv_height v) false) as [u|x] eqn:EU.
    + destruct (uc_key u) eqn:K.
      * split; [lia|]. split; [intros; lia|]. intros _. exists c, u. auto.
      * specialize (IH (no + 1) ltac:(lia) ltac:(lia)). assert (says_key v no false) as N by (exists c, u; auto).
        destruct (seek f d v (no + 1)) as [k|e].
        -- destruct IH as (A & B & C). split; [lia|]. split; [|exact C]. intros i Hi. destruct (Z.eq_dec i no) as [->|]; [exact N|apply B; lia].
        -- destruct IH as (k & x & E & A & B & C). exists k, x. split; [exact E|]. split; [lia|]. split; [|exact C].
           intros i Hi. destruct (Z.eq_dec i no) as [->|]; [exact N|apply B; lia].
    + exists no, (uc_frame_error x). split; [reflexivity|]. split; [lia|]. split; [intros; lia|]. right; right. exists c, x. auto.
Qed.

(** Frames of an opened file are chunks. *)
Lemma frame_chunk file v : bytes_ok file -> zlen file < 2 ^ 63 -> ivf_open file = Ok v ->
  0 <= iv_count v < 2 ^ 32 /\ forall i, 0 <= i -> match ivf_frame v i with Ok c => i < iv_count v /\ chunk_ok c /\ bytes_ok (cbytes c) | Err e => e = RangeError end.
Proof.
  intros B L E. pose proof (C15_any_file file B L) as A. rewrite E in A. destruct A as (A & _ & C & _). split; [exact C|]. intros i Hi. specialize (A i Hi).
  destruct (ivf_frame v i) as [c|]; [|exact A]. destruct A as (A1 & o & n & _ & EB & CO). split; [exact A1|]. split; [exact CO|]. rewrite EB. exact (slice_bytes_ok file o n B).
Qed.

(** A player starts with a new decoder at the first key frame of a VP8 file, or
    at the end of a file that has none, and every frame before says that it is
    not a key frame. It does not start for exactly these reasons: the file is not an IVF
    file; it has no pixels or too many; it is not VP8; a frame before the first
    key frame cannot be taken apart. *)
Theorem C51_open :
  forall file blank, bytes_ok file -> zlen file < 2 ^ 63 ->
  match player_open file blank with
  | Ok p =>
      ivf_open file = Ok (py_file p) /\ iv_fourcc (py_file p) = VP80 /\
      0 < iv_width (py_file p) <= 65520 /\ 0 < iv_height (py_file p) <= 65520 /\
      py_dec p = new_decoder (iv_width (py_file p)) (iv_height (py_file p)) blank /\
      0 <= py_no p <= iv_count (py_file p) /\
      (forall i, 0 <= i < py_no p -> says_key (py_file p) i false) /\
      (py_no p < iv_count (py_file p) -> says_key (py_file p) (py_no p) true)
  | Err (PFile e) => ivf_open file = Err e
  | Err PUnsupported => exists v, ivf_open file = Ok v /\ iv_fourcc v <> VP80
  | Err (PFrame e) =>
      exists v k, ivf_open file = Ok v /\ 0 <= k < iv_count v /\ (forall i, 0 <= i < k -> says_key v i false) /\ unreadable v k e /\ e <> FAbort
  | Err PAbort => exists v, ivf_open file = Ok v /\ (iv_width v = 0 \/ iv_height v = 0 \/ 65520 < iv_width v \/ 65520 < iv_height v)
  | Err _ => False
  end.
Proof.
  intros file blank B L. pose proof (C15_any_file file B L) as A. unfold player_open.
  destruct (ivf_open file) as [v|e] eqn:EO; [|reflexivity]. destruct A as (AF & _ & AC & AW & AH).
  destruct ((iv_width v =? 0) || (iv_height v =? 0) || (65520 <? iv_width v) || (65520 <? iv_height v)) eqn:ED; [exists v; split; [reflexivity|lia]|].
  destruct (same_bytes (iv_fourcc v) VP80) eqn:E4; cbn [negb].
  2: { exists v. split; [reflexivity|]. intros E. apply same_bytes_spec in E. congruence. }
  apply same_bytes_spec in E4.
  pose proof (seek_spec v (new_decoder (iv_width v) (iv_height v) blank) eq_refl eq_refl eq_refl (Z.to_nat (iv_count v)) 0 ltac:(lia) ltac:(lia)) as S.
  destruct (seek _ _ _ _) as [k|e]; cbn [rbind].
  - cbn [py_file py_dec py_no]. destruct S as (S1 & S2 & S3). repeat (split; [first [reflexivity|assumption|lia]|]). exact S3.
  - destruct S as (k & x & -> & S1 & S2 & S3). exists v, k. split; [reflexivity|]. split; [exact S1|]. split; [exact S2|]. split; [exact S3|].
    destruct (frame_chunk file v B L EO) as [_ FC]. specialize (FC k ltac:(lia)).
    destruct S3 as [[_ ->]|[[E _]|(c & y & EF & EU & ->)]]; [discriminate|rewrite E in FC; discriminate|].
    rewrite EF in FC. destruct FC as (_ & CO & CB). pose proof (C13_partitions_within_input c (iv_width v) (iv_height v) false CO CB) as PW. rewrite EU in PW.
    destruct PW as [-> | ->]; discriminate.
Qed.

(** A player that continues with a decoder: the file must be VP8, have the
    decoder's dimensions, and name the decoder's hash or no hash at all. *)
Theorem C51_resume :
  forall combine d v p,
  player_resume combine d v = Ok p <->
  p = mkPlayer d v 0 /\ iv_fourcc v = VP80 /\ iv_width v = ds_w (dc_state d) /\ iv_height v = ds_h (dc_state d) /\
  (iv_hash v = 0 \/ iv_hash v = minihash combine d).
Proof.
  intros combine d v p. unfold player_resume, minihash_match. destruct (same_bytes (iv_fourcc v) VP80) eqn:E4; cbn [negb].
  - apply same_bytes_spec in E4. destruct (Z.eqb_spec (iv_width v) (ds_w (dc_state d))) as [EW|NW]; cbn [negb orb].
    2: { split; [discriminate|]. intros (_ & _ & W & _). congruence. }
    destruct (Z.eqb_spec (iv_height v) (ds_h (dc_state d))) as [EH|NH]; cbn [negb orb].
    2: { split; [discriminate|]. intros (_ & _ & _ & W & _). congruence. }
    destruct (Z.eqb_spec (iv_hash v) 0) as [E0|N0]; cbn [negb].
    + split; [intros [= <-]; auto 8|]. intros (-> & _). reflexivity.
    + destruct (Z.eqb_spec (minihash combine d) (iv_hash v)) as [EM|NM]; cbn [negb].
      * split; [intros [= <-]; auto 8|]. intros (-> & _). reflexivity.
      * split; [discriminate|]. intros (_ & _ & _ & _ & [W|W]); congruence.
  - split; [discriminate|]. intros (_ & W & _). apply same_bytes_spec in W. congruence.
Qed.

(** ** Advancing *)

Definition in_file (p : player) : Prop := 0 <= py_no p <= iv_count (py_file p).

(** What one call of advance does, in terms of the frames it handles. *)
Definition advanced (pool : Z -> raster) (p p' : player) (r : res player_error raster) : Prop :=
  py_file p' = py_file p /\ py_no p <= py_no p' <= iv_count (py_file p) /\
  exists os, watch (py_file p) pool (py_dec p) (py_no p) (Z.to_nat (py_no p' - py_no p)) = (py_dec p', os) /\
  match r with
  | Ok x => exists hs, os = hs ++ [Output true x] /\ Forall hidden hs
  | Err (PFrame e) => exists hs, os = hs ++ [Raised e] /\ Forall hidden hs
  | Err PHidden => py_no p' = iv_count (py_file p) /\ Forall hidden os
  | Err _ => False
  end.

Lemma advance_loop_spec pool : forall f p, (Z.to_nat (iv_count (py_file p) - py_no p) <= f)%nat -> in_file p ->
  let '(p', r) := advance_loop f pool p in advanced pool p p' r.
Proof.
  unfold in_file. induction f as [|f IH]; intros p Hf Hn; cbn [advance_loop]; unfold at_eof; (destruct (Z.eqb_spec (py_no p) (iv_count (py_file p))) as [E|N]; [|try lia]).
  1,2: split; [reflexivity|]; split; [lia|]; exists []; replace (Z.to_nat (py_no p - py_no p)) with 0%nat by lia; split; [reflexivity|]; split; [exact E|constructor].
  assert (forall d o x, handle (py_file p) pool (py_dec p) (py_no p) = (d, o) -> match x with Ok r => o = Output true r | Err (PFrame e) => o = Raised e | _ => False end ->
    advanced pool p (mkPlayer d (py_file p) (py_no p + 1)) x) as ONE.
  { intros d o x E M. split; [reflexivity|]. cbn [py_no py_dec]. split; [lia|]. exists [o]. replace (Z.to_nat (py_no p + 1 - py_no p)) with 1%nat by lia. cbn [watch]. rewrite E.
    split; [reflexivity|]. destruct x as [r|[| | |e| |]]; try contradiction; subst o; exists []; auto. }
  unfold fetch. unfold handle in ONE. destruct (ivf_frame (py_file p) (py_no p)) as [c|[|]] eqn:EF.
  2,3: eapply ONE; reflexivity.
  destruct (get_frame_output (py_dec p) c (pool (py_no p))) as [d [[|] r|e]] eqn:EG.
  1,3: eapply ONE; reflexivity.
  clear ONE. specialize (IH (mkPlayer d (py_file p) (py_no p + 1))). cbn [py_file py_no py_dec] in IH. specialize (IH ltac:(lia) ltac:(lia)).
  destruct (advance_loop f pool _) as [p' x]. destruct IH as (F & R & os & W & M). cbn [py_file py_no py_dec] in F, R, W, M.
  split; [exact F|]. split; [lia|]. exists (Output false r :: os). split.
  - replace (Z.to_nat (py_no p' - py_no p)) with (S (Z.to_nat (py_no p' - (py_no p + 1)))) by lia. cbn [watch]. unfold handle. rewrite EF, EG, W. reflexivity.
  - assert (hidden (Output false r)) as HH by (eexists; reflexivity).
    destruct x as [x|[| | |e| |]]; try contradiction.
    + destruct M as (hs & -> & HF). exists (Output false r :: hs). split; [reflexivity|constructor; assumption].
    + destruct M as (hs & -> & HF). exists (Output false r :: hs). split; [reflexivity|constructor; assumption].
    + destruct M as (EN & HF). split; [exact EN|constructor; assumption].
Qed.

(** One call handles the next frames of the file in order up to and including
    the first that is shown or fails; if all the remaining ones are hidden, it
    handles them all and throws. *)
Theorem C51_advance :
  forall pool p, 0 <= py_no p <= iv_count (py_file p) ->
  let '(p', r) := advance pool p in
  py_file p' = py_file p /\ py_no p <= py_no p' <= iv_count (py_file p) /\
  (at_eof p = false -> py_no p < py_no p') /\
  exists os, watch (py_file p) pool (py_dec p) (py_no p) (Z.to_nat (py_no p' - py_no p)) = (py_dec p', os) /\
  match r with
  | Ok x => exists hs, os = hs ++ [Output true x] /\ Forall hidden hs
  | Err (PFrame e) => exists hs, os = hs ++ [Raised e] /\ Forall hidden hs
  | Err PHidden => py_no p' = iv_count (py_file p) /\ Forall hidden os
  | Err _ => False
  end.
Proof.
  intros pool p Hn. pose proof (advance_loop_spec pool (Z.to_nat (iv_count (py_file p) - py_no p)) p ltac:(lia) Hn) as A. fold (advance pool p) in A.
  destruct (advance pool p) as [p' r]. destruct A as (F & R & os & W & M). split; [exact F|]. split; [exact R|]. split; [|exists os; split; [exact W|exact M]].
  unfold at_eof. intros N. pose proof (watch_length (py_file p) pool (Z.to_nat (py_no p' - py_no p)) (py_dec p) (py_no p)) as LW. rewrite W in LW. cbn [snd] in LW.
  destruct r as [x|[| | |e| |]]; try contradiction.
  - destruct M as (hs & -> & _). rewrite app_length in LW. cbn [length] in LW. lia.
  - destruct M as (hs & -> & _). rewrite app_length in LW. cbn [length] in LW. lia.
  - lia.
Qed.

(** ** Playing to the end *)

(** The pictures to show, up to the first failure, and what ends the list: the
    pictures shown so far are kept in order; a failure ends the playback; so
    does the end of the file, as an exception when the frames since the last
    shown one (there is at least one) were hidden. *)
Fixpoint film (pending : bool) (os : list outcome) : list raster * option player_error :=
  match os with
  | [] => ([], if pending then Some PHidden else None)
  | Output true r :: os' => let '(l, e) := film false os' in (r :: l, e)
  | Output false _ :: os' => film true os'
  | Raised e :: _ => ([], Some (PFrame e))
  end.

Lemma film_hidden hs : Forall hidden hs -> forall b os, film b (hs ++ os) = film (match hs with [] => b | _ => true end) os.
Proof.
  induction 1 as [|o hs [r ->] F IH]; intros b os; [reflexivity|]. cbn [app film]. rewrite IH. destruct hs; reflexivity.
Qed.

(** Playing a file shows exactly the pictures of its shown frames, in order,
    each frame being decoded once, after all the ones before it. *)
Theorem C51_play :
  forall pool p, 0 <= py_no p <= iv_count (py_file p) ->
  let '(l, p', o) := play pool p in
  let '(d, os) := watch (py_file p) pool (py_dec p) (py_no p) (Z.to_nat (iv_count (py_file p) - py_no p)) in
  (l, o) = film false os /\ py_file p' = py_file p /\ py_no p <= py_no p' <= iv_count (py_file p) /\
  py_dec p' = fst (watch (py_file p) pool (py_dec p) (py_no p) (Z.to_nat (py_no p' - py_no p))) /\
  ((exists e, o = Some (PFrame e)) \/ py_no p' = iv_count (py_file p) /\ py_dec p' = d).
Proof.
  intros pool p. unfold play.
  assert (forall f p, (Z.to_nat (iv_count (py_file p) - py_no p) <= f)%nat -> 0 <= py_no p <= iv_count (py_file p) ->
    let '(l, p', o) := play_loop f pool p in
    let '(d, os) := watch (py_file p) pool (py_dec p) (py_no p) (Z.to_nat (iv_count (py_file p) - py_no p)) in
    (l, o) = film false os /\ py_file p' = py_file p /\ py_no p <= py_no p' <= iv_count (py_file p) /\
    py_dec p' = fst (watch (py_file p) pool (py_dec p) (py_no p) (Z.to_nat (py_no p' - py_no p))) /\
    ((exists e, o = Some (PFrame e)) \/ py_no p' = iv_count (py_file p) /\ py_dec p' = d)) as P.
  2: { intros Hn. apply P; [lia|exact Hn]. }
  clear p. induction f as [|f IH]; intros p Hf Hn; cbn [play_loop]; (destruct (at_eof p) eqn:EE; unfold at_eof in EE; [|try lia]).
  1,2: replace (Z.to_nat (iv_count (py_file p) - py_no p)) with 0%nat by lia; cbn [watch]; split; [reflexivity|]; split; [reflexivity|]; split; [lia|];
       replace (Z.to_nat (py_no p - py_no p)) with 0%nat by lia; split; [reflexivity|]; right; split; [lia|reflexivity].
  pose proof (C51_advance pool p Hn) as A. destruct (advance pool p) as [p1 r]. destruct A as (F & R & ST & os & W & M). specialize (ST EE).
  replace (Z.to_nat (iv_count (py_file p) - py_no p)) with (Z.to_nat (py_no p1 - py_no p) + Z.to_nat (iv_count (py_file p) - py_no p1))%nat by lia.
  rewrite watch_split, W. replace (py_no p + Z.of_nat (Z.to_nat (py_no p1 - py_no p))) with (py_no p1) by lia.
  destruct r as [x|[| | |e| |]]; try contradiction.
  - specialize (IH p1). rewrite F in IH. specialize (IH ltac:(lia) ltac:(lia)). destruct (play_loop f pool p1) as [[l p2] o].
    destruct (watch (py_file p) pool (py_dec p1) (py_no p1) (Z.to_nat (iv_count (py_file p) - py_no p1))) as [d os2].
    destruct IH as (I1 & I2 & I3 & I4 & I5). destruct M as (hs & -> & HF). rewrite <- app_assoc, (film_hidden hs HF). cbn [app film]. rewrite <- I1.
    split; [reflexivity|]. split; [exact I2|]. split; [lia|]. split; [|exact I5].
    replace (Z.to_nat (py_no p2 - py_no p)) with (Z.to_nat (py_no p1 - py_no p) + Z.to_nat (py_no p2 - py_no p1))%nat by lia.
    rewrite watch_split, W. replace (py_no p + Z.of_nat (Z.to_nat (py_no p1 - py_no p))) with (py_no p1) by lia. rewrite I4.
    destruct (watch _ _ _ _ (Z.to_nat (py_no p2 - py_no p1))). reflexivity.
  - destruct (watch (py_file p) pool (py_dec p1) (py_no p1) (Z.to_nat (iv_count (py_file p) - py_no p1))) as [d os2].
    destruct M as (hs & -> & HF). rewrite <- app_assoc, (film_hidden hs HF). cbn [app film]. split; [reflexivity|]. split; [exact F|]. split; [lia|]. rewrite W. split; [reflexivity|]. left. eauto.
  - destruct M as (EN & HF). rewrite EN. replace (Z.to_nat (iv_count (py_file p) - iv_count (py_file p))) with 0%nat by lia. cbn [watch]. rewrite (film_hidden os HF).
    split; [|split; [exact F|split; [lia|split]]].
    + destruct os; [|reflexivity]. pose proof (watch_length (py_file p) pool (Z.to_nat (py_no p1 - py_no p)) (py_dec p) (py_no p)) as LW. rewrite W in LW. cbn in LW. lia.
    + rewrite <- EN, W. reflexivity.
    + right. split; reflexivity.
Qed.

(** If every frame decodes and the last one is shown, playing ends without an
    exception and shows the visible pictures. *)
Theorem C51_play_all :
  forall pool p d os shown x, 0 <= py_no p <= iv_count (py_file p) ->
  watch (py_file p) pool (py_dec p) (py_no p) (Z.to_nat (iv_count (py_file p) - py_no p)) = (d, os ++ [Output true x]) ->
  (forall e, ~ In (Raised e) os) -> shown = concat (map (fun o => match o with Output true r => [r] | _ => [] end) os) ++ [x] ->
  exists p', play pool p = (shown, p', None) /\ at_eof p' = true /\ py_dec p' = d.
Proof.
  intros pool p d os shown x Hn W NR ->. pose proof (C51_play pool p Hn) as P. destruct (play pool p) as [[l p'] o]. rewrite W in P. destruct P as (P1 & P2 & _ & _ & P3).
  assert (film false (os ++ [Output true x]) = (concat (map (fun o => match o with Output true r => [r] | _ => [] end) os) ++ [x], None)) as F.
  { clear - NR. generalize false. induction os as [|o os IH]; intros b; [reflexivity|]. assert (forall e, ~ In (Raised e) os) as NR' by (intros e I; apply (NR e); right; exact I).
    destruct o as [[|] r|e]; cbn [app film map concat].
    - rewrite (IH NR'). reflexivity.
    - apply (IH NR').
    - exfalso. apply (NR e). left. reflexivity. }
  rewrite F in P1. injection P1 as -> ->. exists p'. split; [reflexivity|]. destruct P3 as [(e & E)|(E1 & E2)]; [discriminate|].
  split; [unfold at_eof; rewrite P2; lia|exact E2].
Qed.

(** ** Safety *)

Lemma watch_good file v pool w h : bytes_ok file -> zlen file < 2 ^ 63 -> ivf_open file = Ok v -> 0 < w <= 16383 -> 0 < h <= 16383 -> (forall i, raster_for w h (pool i)) ->
  forall n d no, 0 <= no -> decoder_good w h d -> let '(d', os) := watch v pool d no n in decoder_good w h d' /\ ~ In (Raised FAbort) os /\ forall s r, In (Output s r) os -> raster_for w h r.
Proof.
  intros B L E Hw Hh RP. destruct (frame_chunk file v B L E) as [_ FC].
  induction n as [|n IH]; intros d no Hno G; cbn [watch]; [split; [exact G|]; split; [intros []|intros ? ? []]|].
  assert (let '(d1, o) := handle v pool d no in decoder_good w h d1 /\ o <> Raised FAbort /\ forall s r, o = Output s r -> raster_for w h r) as ONE.
  { specialize (FC no Hno). unfold handle. destruct (ivf_frame v no) as [c|e].
    - destruct FC as (_ & CO & CB). destruct (step_good w h d c Hw Hh G CO CB) as (d' & o & G' & _ & OG & S). rewrite (S (pool no) (RP no)).
      split; [exact G'|]. split; [intros ->; cbn in OG; congruence|]. intros s r ->. exact OG.
    - subst e. split; [exact G|]. split; discriminate. }
  destruct (handle v pool d no) as [d1 o]. destruct ONE as (G1 & NA & R1). specialize (IH d1 (no + 1) ltac:(lia) G1). destruct (watch v pool d1 (no + 1) n) as [d2 os].
  destruct IH as (G2 & NA2 & R2). split; [exact G2|]. split.
  - intros [I|I]; [exact (NA I)|exact (NA2 I)].
  - intros s r [I|I]; [exact (R1 s r I)|exact (R2 s r I)].
Qed.

Lemma film_in b os : forall l e, film b os = (l, e) -> (forall r, In r l -> In (Output true r) os) /\ (e = None \/ e = Some PHidden \/ exists x, e = Some (PFrame x) /\ In (Raised x) os).
Proof.
  revert b. induction os as [|o os IH]; intros b l e E; cbn [film] in E.
  - injection E as <- <-. split; [intros ? []|]. destruct b; auto.
  - destruct o as [[|] r|x].
    + destruct (film false os) as [l' e'] eqn:F. injection E as <- <-. destruct (IH false l' e' F) as [A C]. split.
      * intros y [->|I]; [left; reflexivity|right; apply A; exact I].
      * destruct C as [C|[C|(x & C & I)]]; auto. right; right. exists x. split; [exact C|right; exact I].
    + destruct (IH true l e E) as [A C]. split; [intros y I; right; apply A; exact I|]. destruct C as [C|[C|(x & C & I)]]; auto. right; right. exists x. split; [exact C|right; exact I].
    + injection E as <- <-. split; [intros ? []|]. right; right. exists x. split; [reflexivity|left; reflexivity].
Qed.

(** Any file of at most 16383 x 16383 pixels: opening and playing it never
    fails an assertion and never leaves a buffer; each picture shown has the
    file's dimensions; what stops the playback is the end of the file or one
    of the exceptions. *)
Theorem C51_any_file :
  forall file pool blank p, bytes_ok file -> zlen file < 2 ^ 63 -> player_open file blank = Ok p ->
  let w := iv_width (py_file p) in let h := iv_height (py_file p) in
  w <= 16383 -> h <= 16383 -> raster_for w h blank -> (forall i, raster_for w h (pool i)) ->
  let '(l, p', o) := play pool p in
  Forall (raster_for w h) l /\ decoder_good w h (py_dec p') /\
  (o = None \/ o = Some PHidden \/ exists e, o = Some (PFrame e) /\ e <> FAbort).
Proof.
  intros file pool blank p B L E w h Hw Hh RB RP. pose proof (C51_open file blank B L) as O. rewrite E in O. destruct O as (O1 & _ & O2 & O3 & O4 & O5 & _). fold w in O2, O4. fold h in O3, O4.
  pose proof (C51_play pool p O5) as P. destruct (play pool p) as [[l p'] o].
  assert (decoder_good w h (py_dec p)) as G by (rewrite O4; apply C57_new_decoder; [lia|lia|exact RB]).
  pose proof (fun n => watch_good file (py_file p) pool w h B L O1 ltac:(lia) ltac:(lia) RP n (py_dec p) (py_no p) ltac:(lia) G) as WG.
  pose proof (WG (Z.to_nat (iv_count (py_file p) - py_no p))) as W1. destruct (watch _ _ _ _ (Z.to_nat (iv_count (py_file p) - py_no p))) as [d os]. destruct W1 as (_ & W2 & W3).
  destruct P as (P1 & _ & _ & P4 & _). destruct (film_in false os l o (eq_sym P1)) as [F1 F2]. split; [|split].
  - apply Forall_forall. intros r I. exact (W3 true r (F1 r I)).
  - rewrite P4. pose proof (WG (Z.to_nat (py_no p' - py_no p))) as W. destruct (watch _ _ _ _ (Z.to_nat (py_no p' - py_no p))). exact (proj1 W).
  - destruct F2 as [->|[->|(x & -> & I)]]; auto. right; right. exists x. split; [reflexivity|]. intros ->. exact (W2 I).
Qed.

(** ** The size of the current frame *)

(** After a call that shows a frame, it is the size of that frame. *)
Theorem C51_original_size :
  forall pool p p' r, 0 <= py_no p <= iv_count (py_file p) -> iv_count (py_file p) < 2 ^ 32 -> advance pool p = (p', Ok r) ->
  exists c d, ivf_frame (py_file p) (py_no p' - 1) = Ok c /\ py_no p < py_no p' /\
    get_frame_output d c (pool (py_no p' - 1)) = (py_dec p', Output true r) /\ original_size p' = Ok (c_size c).
Proof.
  intros pool p p' r Hn HC E. pose proof (C51_advance pool p Hn) as A. rewrite E in A. destruct A as (F & R & ST & os & W & hs & -> & HF).
  pose proof (watch_length (py_file p) pool (Z.to_nat (py_no p' - py_no p)) (py_dec p) (py_no p)) as LW. rewrite W in LW. cbn [snd] in LW. rewrite app_length in LW. cbn [length] in LW.
  replace (Z.to_nat (py_no p' - py_no p)) with (length hs + 1)%nat in W by lia. rewrite watch_split in W.
  pose proof (watch_length (py_file p) pool (length hs) (py_dec p) (py_no p)) as LH.
  destruct (watch (py_file p) pool (py_dec p) (py_no p) (length hs)) as [d os]. cbn [snd watch] in LH, W.
  replace (py_no p + Z.of_nat (length hs)) with (py_no p' - 1) in W by lia.
  destruct (handle (py_file p) pool d (py_no p' - 1)) as [d1 o] eqn:EH. injection W as -> W. apply app_inj_tail in W. destruct W as [_ ->].
  unfold handle in EH. destruct (ivf_frame (py_file p) (py_no p' - 1)) as [c|[|]] eqn:EF; try discriminate.
  exists c, d. split; [reflexivity|]. split; [lia|]. split; [exact EH|].
  unfold original_size, fetch. rewrite F. unfold wrap. rewrite Z.mod_small by lia. rewrite EF. reflexivity.
Qed.

(** Before the first frame there is no current frame. *)
Theorem C51_original_size_at_start :
  forall p, py_no p = 0 -> zlen (iv_index (py_file p)) < 2 ^ 32 -> original_size p = Err FRange.
Proof.
  intros p E L. unfold original_size, fetch, ivf_frame. rewrite E. change (wrap 32 (0 - 1)) with (2 ^ 32 - 1).
  destruct (nth_error (iv_index (py_file p)) (Z.to_nat (2 ^ 32 - 1))) eqn:EN; [|reflexivity].
  exfalso. assert (Z.to_nat (2 ^ 32 - 1) < length (iv_index (py_file p)))%nat as K by (apply nth_error_Some; congruence). unfold zlen in L. lia.
Qed.

(** ** Examples *)

(** A file of 20 x 10 pixels: an inter frame, a hidden key frame, an inter
    frame that is shown. *)
Definition hide (l : list Z) : list Z := match l with b :: l' => b - 16 :: l' | [] => [] end.
Definition ivf_bytes (fs : list (list Z)) : list Z :=
  [68; 75; 73; 70; 0; 0; 32; 0; 86; 80; 56; 48; 20; 0; 10; 0; 1; 0; 0; 0; 1; 0; 0; 0; zlen fs; 0; 0; 0; 0; 0; 0; 0] ++
  concat (map (fun f => [zlen f; 0; 0; 0; 0; 0; 0; 0; 0; 0; 0; 0] ++ f) fs).
Definition some_file : list Z := ivf_bytes [inter_bytes; hide key_bytes; inter_bytes].
Definition some_pool (_ : Z) : raster := shaded 5.

Example C51_example :
  forallb (fun b => (0 <=? b) && (b <? 256)) some_file = true /\ zlen some_file = 159 /\ raster_for 20 10 (shaded 5) /\
  match player_open some_file (shaded 1) with
  | Ok p =>
      py_no p = 1 /\ iv_width (py_file p) = 20 /\ iv_height (py_file p) = 10 /\ iv_count (py_file p) = 3 /\
      let '(l, p', o) := play some_pool p in
      length l = 1%nat /\ o = None /\ py_no p' = 3 /\ original_size p' = Ok 30
  | Err _ => False
  end.
Proof. split; [vm_compute; reflexivity|]. split; [vm_compute; reflexivity|]. split; [apply shaded_for|]. vm_compute. auto 10. Qed.

Example C51_resume_example :
  match ivf_open some_file with
  | Ok v => player_resume Z.add decoder_one v = Ok (mkPlayer decoder_one v 0)
  | Err _ => False
  end.
Proof. vm_compute. reflexivity. Qed.

(** A player that is not at the end of its file gives a picture or the
    exception of a frame: false, the last frames of a file may be hidden. *)
Theorem C51_hidden_tail_refuted :
  exists file blank p, bytes_ok file /\ player_open file blank = Ok p /\ at_eof p = false /\ exists p', advance some_pool p = (p', Err PHidden) /\ at_eof p' = true.
Proof.
  exists (ivf_bytes [hide key_bytes]), (shaded 1). destruct (player_open (ivf_bytes [hide key_bytes]) (shaded 1)) as [p|] eqn:E; [|vm_compute in E; discriminate].
  exists p. split; [apply bytes_okb_spec; vm_compute; reflexivity|]. split; [reflexivity|].
  assert (match player_open (ivf_bytes [hide key_bytes]) (shaded 1) with Ok p => at_eof p = false /\ match advance some_pool p with (p', Err PHidden) => at_eof p' = true | _ => False end | Err _ => False end) as K by (vm_compute; auto).
  rewrite E in K. destruct K as [K1 K2]. split; [exact K1|]. destruct (advance some_pool p) as [p' [r|[]]]; try contradiction. exists p'. auto.
Qed.

Print Assumptions C51_watch_is_decoding.
Print Assumptions C51_open.
Print Assumptions C51_resume.
Print Assumptions C51_advance.
Print Assumptions C51_play.
Print Assumptions C51_play_all.
Print Assumptions C51_any_file.
Print Assumptions C51_original_size.
Print Assumptions C51_original_size_at_start.
Print Assumptions C51_hidden_tail_refuted.
