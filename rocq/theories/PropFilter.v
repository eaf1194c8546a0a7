(** Property C34 (whole pictures): which lines of which planes the loop filter
    visits, in which order, and with which strength. C33_mb_edge_position and
    C33_sb_edge_position say what happens on one line. *)
From Verif Require Import Base Tables TreeModel MVModel MBModel FrameModel HeaderModel.
From Verif Require Import QuantModel RasterModel TransformModel RasterProofs PredictModel LoopFilterModel PropLoopFilter ReconModel ReconProofs PropPicture StateProofs.

(** The level of a macroblock before limiting it: the frame's or the segment's,
    then the adjustments for its reference and its mode. *)
Definition spec_level (seg : option Segmentation) (fa : option FilterAdjustments) (pc : picture) (m : mbinfo) (id : Z) : Z :=
  match seg with
  | None => pc_level pc
  | Some s => if sg_absolute s then nth (Z.to_nat id) (sg_filter s) 0 else pc_level pc + nth (Z.to_nat id) (sg_filter s) 0
  end +
  match fa with
  | None => 0
  | Some a =>
      if mb_inter m then
        nth (Z.to_nat (mb_reference m)) (fa_ref a) 0 +
        (if mb_ymode m =? ZEROMV then nth 1 (fa_mode a) 0 else if mb_ymode m =? SPLITMV then nth 3 (fa_mode a) 0 else nth 2 (fa_mode a) 0)
      else nth 0 (fa_ref a) 0 + (if mb_ymode m =? B_PRED then nth 0 (fa_mode a) 0 else 0)
  end.

(** The strength for a positive level. *)
Definition spec_limits (key : bool) (level sharpness : Z) : limits :=
  let l := Z.min 63 level in
  let interior := Z.max 1 (if sharpness =? 0 then l else Z.min (9 - sharpness) (if sharpness <=? 4 then l / 2 else l / 4)) in
  mkLim l interior (2 * (l + 2) + interior) (2 * l + interior)
        (if l <? 15 then 0 else if key then (if l <? 40 then 1 else 2) else if l <? 20 then 1 else if l <? 40 then 2 else 3).

(** A line of pixels across an edge: between macroblocks or inside of one, at
    which pixel, and whether it runs to the right or down. *)
Record line : Type := mkLine { ln_outer : bool; ln_x : Z; ln_y : Z; ln_right : bool }.
Definition run_line (lm : limits) (p : plane) (l : line) : option plane :=
  let stride := if ln_right l then 1 else pl_w p in
  if ln_outer l then mb_edge_at lm (ln_x l) (ln_y l) stride p else sb_edge_at lm (ln_x l) (ln_y l) stride p.

(** Left edge, inner vertical edges, top edge, inner horizontal edges. *)
Definition lines_of (size column row : Z) (inner : bool) : list line :=
  let x := size * column in
  let y := size * row in
  let edges := if size =? 16 then [4; 8; 12] else [4] in
  (if column =? 0 then [] else map (fun k => mkLine true x (y + k) true) (zseq size)) ++
  (if inner then flat_map (fun e => map (fun k => mkLine false (x + e) (y + k) true) (zseq size)) edges else []) ++
  (if row =? 0 then [] else map (fun k => mkLine true (x + k) y false) (zseq size)) ++
  (if inner then flat_map (fun e => map (fun k => mkLine false (x + k) (y + e) false) (zseq size)) edges else []).

(** From [r] to [r'] by macroblock number [i]. *)
Definition filtered_by (seg : option Segmentation) (fa : option FilterAdjustments) (pc : picture) (i : nat) (m : mbinfo) (c : mbcoef) (id : Z)
           (r r' : raster) : Prop :=
  let level := spec_level seg fa pc m id in
  let lm := spec_limits (pc_key pc) level (pc_sharpness pc) in
  let column := Z.of_nat (i mod pc_W pc) in
  let row := Z.of_nat (i / pc_W pc) in
  let inner := (mb_ymode m =? B_PRED) || (mb_ymode m =? SPLITMV) || has_nonzero m c in
  if level <=? 0 then r' = r
  else ofold (run_line lm) (lines_of 16 column row inner) (ra_y r) = Some (ra_y r') /\
       ofold (run_line lm) (lines_of 8 column row inner) (ra_u r) = Some (ra_u r') /\
       ofold (run_line lm) (lines_of 8 column row inner) (ra_v r) = Some (ra_v r') /\
       ra_dw r' = ra_dw r /\ ra_dh r' = ra_dh r.

(** ** Proof *)

Lemma ofold_map {A B S} (f : S -> B -> option S) (g : A -> B) l : forall s, ofold f (map g l) s = ofold (fun s a => f s (g a)) l s.
Proof. induction l as [|a l IH]; intros s; [reflexivity|]. cbn [map ofold]. destruct (f s (g a)); cbn [obind]; [apply IH|reflexivity]. Qed.
Lemma ofold_flat_map {A B S} (f : S -> B -> option S) (g : A -> list B) l : forall s,
  ofold f (flat_map g l) s = ofold (fun s a => ofold f (g a) s) l s.
Proof.
  induction l as [|a l IH]; intros s; [reflexivity|]. cbn [flat_map ofold]. rewrite ofold_app. destruct (ofold f (g a) s); cbn [obind]; [apply IH|reflexivity].
Qed.

Lemma obind_ext {A B} (a a' : option A) (f g : A -> option B) : a = a' -> (forall x, f x = g x) -> obind a f = obind a' g.
Proof. intros -> H. destruct a'; cbn [obind]; [apply H|reflexivity]. Qed.

Lemma lines_step size column row inner lm p :
  size = 16 \/ size = 8 -> 0 <= column -> 0 <= row ->
  ofold (run_line lm) (lines_of size column row inner) p =
  obind (if 0 <? column then mb_vertical size (size * column) (size * row) lm p else Some p) (fun p =>
  obind (if inner then sb_vertical size (size * column) (size * row) lm p else Some p) (fun p =>
  obind (if 0 <? row then mb_horizontal size (size * column) (size * row) lm p else Some p) (fun p =>
  if inner then sb_horizontal size (size * column) (size * row) lm p else Some p))).
Proof.
  intros S C R. unfold lines_of. cbv zeta.
  assert (inner_edges size = if size =? 16 then [4; 8; 12] else [4]) as EI by (destruct S as [-> | ->]; reflexivity).
  rewrite <- EI.
  assert (forall (b : bool) (l : list line) q, ofold (run_line lm) (if b then [] else l) q = if b then Some q else ofold (run_line lm) l q) as F1 by (intros [] ? ?; reflexivity).
  assert (forall (b : bool) (l : list line) q, ofold (run_line lm) (if b then l else []) q = if b then ofold (run_line lm) l q else Some q) as F2 by (intros [] ? ?; reflexivity).
  replace (0 <? column) with (negb (column =? 0)) by lia. replace (0 <? row) with (negb (row =? 0)) by lia.
  assert (forall (b : bool) (x y : option plane), (if negb b then x else y) = if b then y else x) as N by (intros [] ? ?; reflexivity).
  rewrite ofold_app. apply obind_ext.
  { rewrite F1, N, ofold_map. reflexivity. }
  intros p1. rewrite ofold_app. apply obind_ext.
  { rewrite F2, ofold_flat_map. destruct inner; [|reflexivity]. apply ofold_ext. intros q e. rewrite ofold_map. reflexivity. }
  intros p2. rewrite ofold_app. apply obind_ext.
  { rewrite F1, N, ofold_map. reflexivity. }
  intros p3. rewrite F2, ofold_flat_map. destruct inner; [|reflexivity]. apply ofold_ext. intros q e. rewrite ofold_map. reflexivity.
Qed.

Lemma on_planes_split f column row r r' : on_planes f column row r = Some r' <->
  f 16 (16 * column) (16 * row) (ra_y r) = Some (ra_y r') /\ f 8 (8 * column) (8 * row) (ra_u r) = Some (ra_u r') /\
  f 8 (8 * column) (8 * row) (ra_v r) = Some (ra_v r') /\ ra_dw r' = ra_dw r /\ ra_dh r' = ra_dh r.
Proof.
  unfold on_planes. destruct r' as [w' h' y' u' v']. cbn [ra_y ra_u ra_v ra_dw ra_dh].
  destruct (f 16 _ _ _) as [y|]; cbn [obind]; [|split; [discriminate|intros (H & _); discriminate]].
  destruct (f 8 _ _ (ra_u r)) as [u|]; cbn [obind]; [|split; [discriminate|intros (_ & H & _); discriminate]].
  destruct (f 8 _ _ (ra_v r)) as [v|]; cbn [obind]; [|split; [discriminate|intros (_ & _ & H & _); discriminate]].
  split; [intros H; injection H as <- <- <- <- <-; auto|]. intros (A & B & C & -> & ->). congruence.
Qed.

Lemma pass_split (b : bool) f column row r r' : (if b then on_planes f column row r else Some r) = Some r' ->
  (if b then f 16 (16 * column) (16 * row) (ra_y r) else Some (ra_y r)) = Some (ra_y r') /\
  (if b then f 8 (8 * column) (8 * row) (ra_u r) else Some (ra_u r)) = Some (ra_u r') /\
  (if b then f 8 (8 * column) (8 * row) (ra_v r) else Some (ra_v r)) = Some (ra_v r') /\ ra_dw r' = ra_dw r /\ ra_dh r' = ra_dh r.
Proof. destruct b; [apply on_planes_split|]. intros H. injection H as <-. auto. Qed.

Lemma normal_filter_lines lm skip column row r r' : 0 <= column -> 0 <= row -> normal_filter lm skip column row r = Some r' ->
  ofold (run_line lm) (lines_of 16 column row (negb skip)) (ra_y r) = Some (ra_y r') /\
  ofold (run_line lm) (lines_of 8 column row (negb skip)) (ra_u r) = Some (ra_u r') /\
  ofold (run_line lm) (lines_of 8 column row (negb skip)) (ra_v r) = Some (ra_v r') /\ ra_dw r' = ra_dw r /\ ra_dh r' = ra_dh r.
Proof.
  intros C R E. unfold normal_filter in E.
  assert (forall (b : bool) (x y : option raster), (if b then x else y) = if negb b then y else x) as N by (intros [] ? ?; reflexivity).
  destruct (if 0 <? column then _ else _) as [r1|] eqn:E1; [|discriminate]. cbn [obind] in E.
  destruct (if skip then Some r1 else _) as [r2|] eqn:E2; [|discriminate]. cbn [obind] in E.
  destruct (if 0 <? row then _ else _) as [r3|] eqn:E3; [|discriminate]. cbn [obind] in E.
  rewrite N in E2, E. apply pass_split in E1, E2, E3, E.
  destruct E1 as (Y1 & U1 & V1 & W1 & H1), E2 as (Y2 & U2 & V2 & W2 & H2), E3 as (Y3 & U3 & V3 & W3 & H3), E as (Y4 & U4 & V4 & W4 & H4).
  rewrite !lines_step by lia. cbv beta in *.
  rewrite Y1, U1, V1. cbn [obind]. rewrite Y2, U2, V2. cbn [obind]. rewrite Y3, U3, V3. cbn [obind]. repeat split; try assumption; congruence.
Qed.

Lemma limits_spec key f : 0 < fp_level f -> 0 <= fp_sharpness f <= 7 -> make_limits key f = spec_limits key (fp_level f) (fp_sharpness f).
Proof.
  intros L S. destruct (C34_limits key f S) as (A & _ & _ & B & C & _ & D & _ & E).
  destruct (make_limits key f) as [l i mb sb hev]. cbn [lm_level lm_interior lm_mb lm_sb lm_hev] in *. unfold spec_limits. cbv zeta.
  assert (l = Z.min 63 (fp_level f)) as A' by lia. rewrite <- A'.
  assert (i = Z.max 1 (if fp_sharpness f =? 0 then l else Z.min (9 - fp_sharpness f) (if fp_sharpness f <=? 4 then l / 2 else l / 4))) as B'.
  { rewrite B. destruct (fp_sharpness f <=? 4); reflexivity. }
  rewrite <- B'. f_equal; [lia|lia|]. rewrite E. clear. destruct key; destruct (l <? 15) eqn:?, (l <? 20) eqn:?, (l <? 40) eqn:?, (15 <=? l) eqn:?, (20 <=? l) eqn:?, (40 <=? l) eqn:?; lia.
Qed.

(** What each macroblock of a picture does. *)
Theorem C34_picture :
  forall seg fa refs pc mw mh r,
  picture_ok mw mh refs pc -> (forall s, seg = Some s -> segmentation_ok s) -> 0 <= pc_sharpness pc <= 7 -> raster_ok mw mh r ->
  exists r', picture_loopfilter seg fa pc r = Some (Filtered r') /\
    (pc_level pc = 0 -> r' = r) /\
    (pc_level pc <> 0 -> exists after : nat -> raster,
       after 0%nat = r /\ after (length (pc_mbs pc)) = r' /\
       forall i m c id, nth_error (pc_mbs pc) i = Some (m, c, id) -> filtered_by seg fa pc i m c id (after i) (after (S i))).
Proof.
  intros seg fa refs pc mw mh r HP HS SH Hr.
  destruct (loopfilter_ok seg fa refs pc mw mh r HP HS Hr) as (r' & E & _). exists r'. split; [exact E|].
  unfold picture_loopfilter in E. destruct (pc_level pc =? 0) eqn:L; [split; [intros _; congruence|lia]|]. split; [lia|]. intros _.
  destruct HP as (EW & EL & Bw & Bh & HQ & HSi & HK & HR & HM).
  match type of E with ofold ?f _ _ = _ => set (step := f) in E end.
  assert (ST : forall i m c id a a', nth_error (pc_mbs pc) i = Some (m, c, id) -> step (Filtered a) (i, (m, c, id)) = Some (Filtered a') ->
            filtered_by seg fa pc i m c id a a').
  { intros i m c id a a' Hi Hs. unfold step in Hs.
    pose proof (proj1 (Forall_forall _ _) HM _ (nth_error_In _ _ Hi)) as [Hm Hid].
    set (base := match seg with None => pc_level pc | Some s => if sg_absolute s then nth (Z.to_nat id) (sg_filter s) 0 else pc_level pc + nth (Z.to_nat id) (sg_filter s) 0 end).
    assert ((match seg with Some s => segment_filter pc s id | None => Some (frame_filter pc) end) = Some (mkFP (pc_simple pc) base (pc_sharpness pc))) as F.
    { unfold base. destruct seg as [sg|]; [|reflexivity]. unfold segment_filter. destruct (HS sg eq_refl) as (_ & LS & _).
      destruct (nth_error (sg_filter sg) (Z.to_nat id)) eqn:EN; [|apply nth_error_None in EN; lia]. cbn [obind].
      rewrite (nth_error_nth _ _ 0 EN). do 2 f_equal. destruct (sg_absolute sg); lia. }
    rewrite F in Hs. cbn [obind] in Hs. unfold mb_loopfilter in Hs.
    match type of Hs with (if fp_level ?x <=? 0 then _ else _) = _ => set (f := x) in Hs end.
    assert (fp_level f = spec_level seg fa pc m id /\ fp_simple f = pc_simple pc /\ fp_sharpness f = pc_sharpness pc) as (FL & FS & FH).
    { unfold f, spec_level. fold base. destruct fa as [[ra ma]|]; cbn [option_map fp_level fp_simple fp_sharpness fa_ref fa_mode fp_adjust]; [|split; [rewrite Z.add_0_r; reflexivity|split; reflexivity]].
      split; [|split; reflexivity]. f_equal. unfold mode_adjustment, mb_reference. unfold reference.
      destruct (mb_inter m); [|reflexivity]. destruct (mb_sel1 m) as [[]|]; cbn [negb]; try reflexivity. destruct (mb_sel2 m) as [[]|]; reflexivity. }
    clearbody f. unfold filtered_by. cbv zeta. rewrite <- FL, <- FH. destruct (fp_level f <=? 0) eqn:EF; [congruence|].
    rewrite FS, HSi in Hs. rewrite <- limits_spec by lia.
    destruct (normal_filter _ _ _ _ _) as [a''|] eqn:EN; [|discriminate]. cbn [obind] in Hs. injection Hs as ->.
    apply normal_filter_lines in EN; [|apply Nat2Z.is_nonneg|apply Nat2Z.is_nonneg].
    replace (negb (y2_coded m && negb (has_nonzero m c))) with ((mb_ymode m =? B_PRED) || (mb_ymode m =? SPLITMV) || has_nonzero m c) in EN; [exact EN|].
    unfold y2_coded. destruct (mb_ymode m =? B_PRED), (mb_ymode m =? SPLITMV), (has_nonzero m c); reflexivity. }
  assert (SU : forall l, ofold step l SimpleUnsupported = Some (Filtered r') -> False).
  { induction l as [|[j [[m c] id]] l IH]; cbn [ofold]; [discriminate|]. exact IH. }
  assert (G : forall l k a, ofold step (combine (seq k (length l)) l) (Filtered a) = Some (Filtered r') ->
            (forall j x, nth_error l j = Some x -> nth_error (pc_mbs pc) (k + j) = Some x) ->
            exists after, after 0%nat = a /\ after (length l) = r' /\
              forall j m c id, nth_error l j = Some (m, c, id) -> filtered_by seg fa pc (k + j) m c id (after j) (after (S j))).
  { induction l as [|[[m c] id] l IH]; intros k a H X.
    - cbn in H. exists (fun _ => a). split; [reflexivity|]. split; [congruence|]. intros [|j] ? ? ? Hj; discriminate.
    - cbn [length seq combine ofold] in H. destruct (step (Filtered a) (k, (m, c, id))) as [[a'|]|] eqn:ES; [| |discriminate].
      2: { cbn [obind] in H. exfalso. eapply SU. exact H. }
      cbn [obind] in H. destruct (IH (S k) a' H) as (after & A0 & A1 & A2).
      { intros j x Hj. rewrite <- (X (S j) x Hj). f_equal. lia. }
      exists (fun j => match j with O => a | S j => after j end). split; [reflexivity|]. split; [exact A1|].
      intros [|j] m' c' id' Hj.
      + injection Hj as <- <- <-. rewrite A0, Nat.add_0_r. apply (ST _ _ _ _ _ _ (eq_trans (f_equal _ (eq_sym (Nat.add_0_r k))) (X 0%nat _ eq_refl)) ES).
      + replace (k + S j)%nat with (S k + j)%nat by lia. apply A2. exact Hj. }
  unfold indexed in E. destruct (G (pc_mbs pc) 0%nat r E (fun j x H => H)) as (after & A). exists after. exact A.
Qed.

(** A picture of one macroblock with a segment of an absolute or a relative
    level and adjustments. *)
Definition example_mb : mbinfo := mkMB None None false None None false None DC_PRED (repeat 0 16) (repeat mv_zero 16) DC_PRED.
Definition example_inter_mb : mbinfo := mkMB None None true (Some true) None false None ZEROMV (repeat 0 16) (repeat mv_zero 16) DC_PRED.
Definition example_pc : picture := mkPic true (mkQI 0 None None None None None) false 40 3 1 [(example_mb, fresh_coef, 1)].
Definition example_segment (absolute : bool) : Segmentation := mkSeg absolute [0; 0; 0; 0] [5; 9; 0; 63] (grey 16 16).
Example C34_picture_example :
  picture_ok 1 1 (mkRefs (mkRaster 16 16 (grey 16 16) (grey 8 8) (grey 8 8)) (mkRaster 16 16 (grey 16 16) (grey 8 8) (grey 8 8))
                         (mkRaster 16 16 (grey 16 16) (grey 8 8) (grey 8 8))) example_pc /\
  (forall b, segmentation_ok (example_segment b)) /\ pc_level example_pc <> 0 /\
  spec_level (Some (example_segment true)) None example_pc example_mb 1 = 9 /\
  spec_level (Some (example_segment false)) (Some (mkFA [1; 2; 3; 4] [10; 20; 30; 40])) example_pc example_mb 1 = 50 /\
  spec_level None (Some (mkFA [1; 2; 3; 4] [10; 20; 30; 40])) example_pc example_inter_mb 1 = 63 /\
  spec_limits false 50 3 = mkLim 50 6 110 106 3 /\ length (lines_of 16 1 1 true) = 128%nat.
Proof.
  split; [|split; [intros b; repeat split; repeat constructor; lia|split; [discriminate|vm_compute; auto]]].
  repeat split; try (cbn; lia); try discriminate; repeat (constructor; try (cbn; lia)).
  all: vm_compute; discriminate.
Qed.

Print Assumptions C34_picture.
