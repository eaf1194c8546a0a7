(** C44, C45, C46, C60: the searches of the encoder and its probabilities. *)
From Verif Require Import Base SearchModel.

(** * C44 *)

Lemma quot_mid : forall lo hi, 0 <= lo -> lo <= hi -> Z.quot (lo + hi) 2 = (lo + hi) / 2.
Proof. intros lo hi L H. apply Z.quot_div_nonneg; lia. Qed.

Section TargetProofs.
Context {T : Type}.
Variable estimate : T -> Z -> Z * T.
Variable target : Z.

Lemma target_loop_bounds : forall n fuel t lo hi best,
  (n < fuel)%nat -> 0 <= lo -> hi < 255 -> hi - lo + 1 < 2 ^ Z.of_nat n ->
  (best = 255 /\ lo <= hi) \/ (best = hi + 1 /\ best < 255 /\ lo <= hi + 1) ->
  exists q t', target_loop estimate target fuel t lo hi best = Some (q, t')
    /\ lo <= q <= (if best =? 255 then hi else hi + 1).
Proof.
  induction n as [|n IH]; intros fuel t lo hi best F L H W C;
    destruct fuel as [|fuel]; try (exfalso; lia); cbn [target_loop].
  - change (2 ^ Z.of_nat 0) with 1 in W. destruct (lo <=? hi) eqn:E; [exfalso; lia|].
    exists best, t. split; [reflexivity|]. destruct (best =? 255) eqn:E255; lia.
  - destruct (lo <=? hi) eqn:E.
    + assert (LE : lo <= hi) by lia.
      rewrite (quot_mid lo hi L LE). set (q := (lo + hi) / 2).
      assert (Q : lo <= q <= hi) by (unfold q; lia).
      rewrite Nat2Z.inj_succ, Z.pow_succ_r in W by lia.
      destruct (estimate t q) as [size t'] eqn:ES.
      destruct ((size <=? target) || ((lo =? hi) && (best =? 255))) eqn:TK.
      * destruct (IH fuel t' lo (q - 1) q) as [r [t2 [R B]]]; [lia|lia|lia|unfold q; lia|right; lia|].
        exists r, t2. split; [exact R|].
        destruct (q =? 255) eqn:E1; [exfalso; lia|]. destruct (best =? 255); lia.
      * assert (C2 : (best = 255 /\ q + 1 <= hi) \/ (best = hi + 1 /\ best < 255 /\ q + 1 <= hi + 1)).
        { destruct C as [[C1 C2]|C]; [left|right; lia]. subst best. split; [reflexivity|].
          apply orb_false_iff in TK. destruct TK as [_ TK]. rewrite Z.eqb_refl in TK.
          unfold q. lia. }
        destruct (IH fuel t' (q + 1) hi best) as [r [t2 [R B]]]; [lia|lia|lia|unfold q; lia|exact C2|].
        exists r, t2. split; [exact R|]. lia.
    + exists best, t. split; [reflexivity|]. destruct (best =? 255) eqn:E255; lia.
Qed.

(** An estimator whose answer depends on the quantiser only. *)
Variable size : Z -> Z.
Hypothesis stateless : forall t q, fst (estimate t q) = size q.

Lemma target_loop_fits : forall n fuel t lo hi best r t' top,
  (n < fuel)%nat -> 0 <= lo -> hi < 255 -> hi - lo + 1 < 2 ^ Z.of_nat n ->
  (best = 255 /\ lo <= hi /\ hi = top) \/ (best = hi + 1 /\ best < 255 /\ lo <= hi + 1 /\ size best <= target) ->
  target_loop estimate target fuel t lo hi best = Some (r, t') ->
  size r <= target \/ r = top.
Proof.
  induction n as [|n IH]; intros fuel t lo hi best r t' top F L H W C R;
    destruct fuel as [|fuel]; try (exfalso; lia); cbn [target_loop] in R.
  - change (2 ^ Z.of_nat 0) with 1 in W. destruct (lo <=? hi) eqn:E; [exfalso; lia|].
    injection R as <- <-. destruct C as [C|C]; [exfalso|left]; lia.
  - destruct (lo <=? hi) eqn:E.
    + assert (LE : lo <= hi) by lia.
      rewrite (quot_mid lo hi L LE) in R. set (q := (lo + hi) / 2) in R.
      assert (Q : lo <= q <= hi) by (unfold q; lia).
      rewrite Nat2Z.inj_succ, Z.pow_succ_r in W by lia.
      assert (ES := stateless t q). destruct (estimate t q) as [s t2]; cbn [fst] in ES; subst s.
      destruct ((size q <=? target) || ((lo =? hi) && (best =? 255))) eqn:TK.
      * destruct (size q <=? target) eqn:FT.
        -- refine (IH fuel t2 lo (q - 1) q r t' top _ _ _ _ _ R); [lia|lia|lia|unfold q; lia|right; lia].
        -- cbn [orb] in TK. assert (EQ : lo = hi) by lia. assert (q = hi) by lia.
           right. destruct fuel as [|fuel]; [discriminate R|]. cbn [target_loop] in R.
           destruct (lo <=? q - 1) eqn:E2; [exfalso; lia|]. injection R as <- <-. lia.
      * assert (C2 : (best = 255 /\ q + 1 <= hi /\ hi = top) \/ (best = hi + 1 /\ best < 255 /\ q + 1 <= hi + 1 /\ size best <= target)).
        { destruct C as [[C1 C2]|C]; [left|right; lia]. subst best. split; [reflexivity|].
          apply orb_false_iff in TK. destruct TK as [_ TK]. rewrite Z.eqb_refl in TK.
          unfold q. lia. }
        refine (IH fuel t2 (q + 1) hi best r t' top _ _ _ _ C2 R); [lia|lia|lia|unfold q; lia].
    + injection R as <- <-. destruct C as [C|C]; [exfalso|left]; lia.
Qed.

Lemma target_loop_least : forall n fuel t lo hi best r t' bottom top,
  (forall a b, bottom <= a <= b -> b <= top -> size b <= size a) ->
  (n < fuel)%nat -> 0 <= bottom <= lo -> hi < 255 -> hi <= top -> hi - lo + 1 < 2 ^ Z.of_nat n ->
  (forall q, bottom <= q < lo -> target < size q) ->
  (best = 255 /\ lo <= hi) \/ (best = hi + 1 /\ best < 255 /\ lo <= hi + 1) ->
  target_loop estimate target fuel t lo hi best = Some (r, t') ->
  forall q, bottom <= q < r -> target < size q.
Proof.
  induction n as [|n IH]; intros fuel t lo hi best r t' bottom top M F L H HT W P C R;
    destruct fuel as [|fuel]; try (exfalso; lia); cbn [target_loop] in R.
  - change (2 ^ Z.of_nat 0) with 1 in W. destruct (lo <=? hi) eqn:E; [exfalso; lia|].
    injection R as <- <-. intros q Hq. apply P. lia.
  - destruct (lo <=? hi) eqn:E.
    + assert (LE : lo <= hi) by lia. assert (L0 : 0 <= lo) by lia.
      rewrite (quot_mid lo hi L0 LE) in R. set (m := (lo + hi) / 2) in R.
      assert (Q : lo <= m <= hi) by (unfold m; lia).
      rewrite Nat2Z.inj_succ, Z.pow_succ_r in W by lia.
      assert (ES := stateless t m). destruct (estimate t m) as [s t2]; cbn [fst] in ES; subst s.
      destruct ((size m <=? target) || ((lo =? hi) && (best =? 255))) eqn:TK.
      * refine (IH fuel t2 lo (m - 1) m r t' bottom top M _ _ _ _ _ P _ R); [lia|lia|lia|lia|unfold m; lia|right; lia].
      * apply orb_false_iff in TK. destruct TK as [FT TK].
        assert (C2 : (best = 255 /\ m + 1 <= hi) \/ (best = hi + 1 /\ best < 255 /\ m + 1 <= hi + 1)).
        { destruct C as [[C1 C2]|C]; [left|right; lia]. subst best. split; [reflexivity|].
          rewrite Z.eqb_refl in TK. unfold m. lia. }
        refine (IH fuel t2 (m + 1) hi best r t' bottom top M _ _ _ _ _ _ C2 R); [lia|lia|lia|lia|unfold m; lia|].
        intros q Hq. assert (size m <= size q) by (apply M; lia). lia.
    + injection R as <- <-. intros q Hq. apply P. lia.
Qed.
End TargetProofs.

(** The quantisers allowed after [last]: at most 16 steps away, and 4..127. *)
Definition allowed (last : option Z) (q : Z) : Prop :=
  4 <= q <= 127 /\ match last with None => True | Some l => l - 16 <= q <= l + 16 end.

(** A previous quantiser is one a frame header can hold. *)
Definition last_ok (last : option Z) : Prop := match last with None => True | Some l => 0 <= l <= 127 end.

Lemma target_window_spec : forall last lo hi,
  last_ok last -> target_window last = (lo, hi) ->
  4 <= lo <= hi /\ hi <= 127 /\ forall q, allowed last q <-> lo <= q <= hi.
Proof.
  intros [l|] lo hi K W; unfold target_window in W; cbn [last_ok] in K.
  - injection W as <- <-. unfold allowed. destruct (4 <=? l - 16) eqn:E; (split; [lia|]; split; [lia|]; intros q; lia).
  - injection W as <- <-. unfold allowed. split; [lia|]. split; [lia|]. intros q; lia.
Qed.

(** The search ends after at most seven trial encodings, whatever the estimator
    answers and however its answers change, with an allowed quantiser. *)
Theorem C44_bounds : forall (T : Type) (estimate : T -> Z -> Z * T) target fuel t last,
  (8 <= fuel)%nat -> last_ok last ->
  exists q t', target_search estimate target fuel t last = Some (q, t') /\ allowed last q.
Proof.
  intros T estimate target fuel t last F K. unfold target_search.
  destruct (target_window last) as [lo hi] eqn:W.
  destruct (target_window_spec last lo hi K W) as [B [U A]].
  destruct (target_loop_bounds estimate target 7 fuel t lo hi 255) as [q [t' [R Q]]];
    [lia|lia|lia|change (2 ^ Z.of_nat 7) with 128; lia|left; lia|].
  exists q, t'. split; [exact R|]. apply A. rewrite Z.eqb_refl in Q. exact Q.
Qed.

(** If the estimate is a function of the quantiser, the chosen one fits the
    target, or it is the coarsest of the window. *)
Theorem C44_fits : forall (T : Type) (estimate : T -> Z -> Z * T) (size : Z -> Z) target fuel t last q t',
  (forall t q, fst (estimate t q) = size q) ->
  (8 <= fuel)%nat -> last_ok last ->
  target_search estimate target fuel t last = Some (q, t') ->
  size q <= target \/ (allowed last q /\ forall p, allowed last p -> p <= q).
Proof.
  intros T estimate size target fuel t last q t' SL F K R. unfold target_search in R.
  destruct (target_window last) as [lo hi] eqn:W.
  destruct (target_window_spec last lo hi K W) as [B [U A]].
  destruct (target_loop_fits estimate target size SL 7 fuel t lo hi 255 q t' hi) as [G|G];
    [lia|lia|lia|change (2 ^ Z.of_nat 7) with 128; lia|left; lia|exact R|left; exact G|].
  right. subst q. split; [apply A; lia|]. intros p P. apply A in P. lia.
Qed.

(** If moreover the estimate does not grow with the quantiser, the chosen one
    is the finest allowed quantiser that fits, or the coarsest allowed one if
    none fits. *)
Theorem C44_best : forall (T : Type) (estimate : T -> Z -> Z * T) (size : Z -> Z) target fuel t last q t',
  (forall t q, fst (estimate t q) = size q) ->
  (forall a b, allowed last a -> allowed last b -> a <= b -> size b <= size a) ->
  (8 <= fuel)%nat -> last_ok last ->
  target_search estimate target fuel t last = Some (q, t') ->
  (forall p, allowed last p -> size p <= target -> q <= p)
  /\ ((exists p, allowed last p /\ size p <= target) -> size q <= target)
  /\ ((forall p, allowed last p -> target < size p) -> forall p, allowed last p -> p <= q).
Proof.
  intros T estimate size target fuel t last q t' SL M F K R.
  assert (FT := C44_fits T estimate size target fuel t last q t' SL F K R).
  destruct (C44_bounds T estimate target fuel t last F K) as [q2 [t2 [R2 AQ]]].
  rewrite R in R2. injection R2 as <- <-.
  unfold target_search in R.
  destruct (target_window last) as [lo hi] eqn:W.
  destruct (target_window_spec last lo hi K W) as [B [U A]].
  assert (LEAST : forall p, lo <= p < q -> target < size p).
  { refine (target_loop_least estimate target size SL 7 fuel t lo hi 255 q t' lo hi _ _ _ _ _ _ _ _ R).
    - intros a b AB BT. apply M; [apply A; lia|apply A; lia|lia].
    - lia.
    - lia.
    - lia.
    - lia.
    - change (2 ^ Z.of_nat 7) with 128; lia.
    - intros p P. lia.
    - left; lia. }
  split; [|split].
  - intros p P S. apply A in P. destruct (Z_lt_le_dec p q) as [C|C]; [|exact C].
    assert (X := LEAST p ltac:(lia)). lia.
  - intros [p [P S]]. destruct FT as [G|[_ G]]; [exact G|].
    specialize (G p P). assert (X := M p q P AQ G). lia.
  - intros N. destruct FT as [G|[_ G]]; [|exact G]. specialize (N q AQ). lia.
Qed.

(** Without the bound on the previous quantiser (encode_with_quantizer takes
    any uint8_t and stores it in the header field unchecked) the window is
    empty and the encoder would use 255. *)
Theorem C44_unbounded_refuted : forall (T : Type) (estimate : T -> Z -> Z * T) target t l,
  144 <= l <= 255 -> target_search estimate target (S 7) t (Some l) = Some (255, t).
Proof.
  intros T estimate target t l B. unfold target_search, target_window.
  destruct (4 <=? l - 16) eqn:E; [|exfalso; lia].
  assert (E2 : (l - 16 <=? Z.min 127 (l + 16)) = false) by lia.
  revert E2. generalize (l - 16), (Z.min 127 (l + 16)), 7%nat. intros lo hi n E2.
  cbn [target_loop]. rewrite E2. reflexivity.
Qed.

(** If estimates are not monotone, the search may miss a finer quantiser. *)
Theorem C44_monotone_needed_refuted :
  exists size q, target_search (fun (t : unit) p => (size p, t)) 100 8 tt None = Some (q, tt)
    /\ allowed None 4 /\ size 4 <= 100 /\ 4 < q.
Proof.
  exists (fun p => if p =? 4 then 0 else 1000 - 9 * p). exists 100. repeat split; vm_compute; congruence.
Qed.

Example C44_example :
  target_search (fun (t : unit) p => (3000 - 10 * p, t)) 2400 8 tt (Some 50) = Some (60, tt)
  /\ allowed (Some 50) 60 /\ last_ok (Some 50).
Proof. repeat split; vm_compute; congruence. Qed.

(** * C45 *)

Section QualityProofs.
Context {T : Type}.
Variable measure : T -> Z -> comparison_ssim * T.

Lemma quality_loop_bounds : forall n fuel t lo hi found best,
  (n < fuel)%nat -> 0 <= lo -> hi <= 127 -> hi - lo + 1 < 2 ^ Z.of_nat n -> 0 <= best <= 127 ->
  exists q t', quality_loop measure fuel t lo hi found best = Some (q, t') /\ 0 <= q <= 127.
Proof.
  induction n as [|n IH]; intros fuel t lo hi found best F L H W B;
    destruct fuel as [|fuel]; try (exfalso; lia); cbn [quality_loop].
  - change (2 ^ Z.of_nat 0) with 1 in W. destruct (lo <=? hi) eqn:E; [exfalso; lia|].
    exists best, t. split; [reflexivity|lia].
  - destruct (lo <=? hi) eqn:E; [|exists best, t; split; [reflexivity|lia]].
    assert (LE : lo <= hi) by lia.
    rewrite (quot_mid lo hi L LE). set (q := (lo + hi) / 2).
    assert (Q : lo <= q <= hi) by (unfold q; lia).
    rewrite Nat2Z.inj_succ, Z.pow_succ_r in W by lia.
    destruct (measure t q) as [c t'].
    set (take := match c with AtLeast => true | _ => (lo =? hi) && negb found end).
    assert (B' : 0 <= (if take then q else best) <= 127) by (destruct take; lia).
    destruct (lo =? hi) eqn:EQ; [eexists; eexists; split; [reflexivity|exact B']|].
    destruct c; apply IH; try exact B'; try lia; unfold q; lia.
Qed.

Variable c : Z -> comparison_ssim.
Hypothesis stateless : forall t q, fst (measure t q) = c q.
Hypothesis ordered : forall q, 0 <= q <= 127 -> c q <> Unordered.
Hypothesis closed : forall p q, 0 <= p <= q -> q <= 127 -> c q = AtLeast -> c p = AtLeast.

Lemma quality_loop_best : forall n fuel t lo hi found best r t',
  (n < fuel)%nat -> 0 <= lo -> hi <= 127 -> hi - lo + 1 < 2 ^ Z.of_nat n ->
  (forall q, hi < q <= 127 -> c q = Below) ->
  (found = true /\ best = lo - 1 /\ 0 <= best <= 127 /\ c best = AtLeast) \/ (found = false /\ best = 0 /\ lo = 0) ->
  quality_loop measure fuel t lo hi found best = Some (r, t') ->
  0 <= r <= 127 /\ (forall q, r < q <= 127 -> c q = Below) /\ (c r = AtLeast \/ (r = 0 /\ c 0 = Below)).
Proof.
  induction n as [|n IH]; intros fuel t lo hi found best r t' F L H W P C R;
    destruct fuel as [|fuel]; try (exfalso; lia); cbn [quality_loop] in R.
  - change (2 ^ Z.of_nat 0) with 1 in W. destruct (lo <=? hi) eqn:E; [exfalso; lia|].
    injection R as <- <-. destruct C as [[C1 [C2 [C3 C4]]]|[C1 [C2 C3]]].
    + split; [lia|]. split; [|left; exact C4]. intros q Q. apply P. lia.
    + subst best lo. split; [lia|]. split; [|right; split; [reflexivity|apply P; lia]]. intros q Q. apply P. lia.
  - assert (DONE : lo > hi -> Some (best, t) = Some (r, t') ->
       0 <= r <= 127 /\ (forall q, r < q <= 127 -> c q = Below) /\ (c r = AtLeast \/ (r = 0 /\ c 0 = Below))).
    { intros G R2. injection R2 as <- <-. destruct C as [[C1 [C2 [C3 C4]]]|[C1 [C2 C3]]].
      - split; [lia|]. split; [|left; exact C4]. intros q Q. apply P. lia.
      - subst best lo. split; [lia|]. split; [|right; split; [reflexivity|apply P; lia]]. intros q Q. apply P. lia. }
    destruct (lo <=? hi) eqn:E; [|apply DONE; [lia|exact R]].
    clear DONE.
    assert (LE : lo <= hi) by lia.
    rewrite (quot_mid lo hi L LE) in R. set (m := (lo + hi) / 2) in R.
    assert (Q : lo <= m <= hi) by (unfold m; lia).
    rewrite Nat2Z.inj_succ, Z.pow_succ_r in W by lia.
    assert (ES := stateless t m). destruct (measure t m) as [x t2]; cbn [fst] in ES; subst x.
    destruct (c m) eqn:CM.
    + destruct (lo =? hi) eqn:EQ.
      * injection R as <- <-. split; [lia|]. split; [|left; exact CM]. intros q Hq. apply P. lia.
      * refine (IH fuel t2 (m + 1) hi true m r t' _ _ _ _ P _ R); [lia|lia|lia|unfold m; lia|].
        left. split; [reflexivity|]. split; [lia|]. split; [lia|exact CM].
    + assert (P2 : forall q, m <= q <= 127 -> c q = Below).
      { intros q Hq. assert (O := ordered q ltac:(lia)). destruct (c q) eqn:CQ; [|reflexivity|congruence].
        rewrite (closed m q ltac:(lia) ltac:(lia) CQ) in CM. discriminate CM. }
      destruct (lo =? hi) eqn:EQ.
      * assert (m = lo) by lia. destruct C as [[C1 [C2 [C3 C4]]]|[C1 [C2 C3]]].
        -- subst found. cbn [andb negb] in R. injection R as <- <-.
           split; [lia|]. split; [|left; exact C4]. intros q Hq. apply P2. lia.
        -- subst found. cbn [andb negb] in R. injection R as <- <-.
           split; [lia|]. split; [intros q Hq; apply P2; lia|]. right. split; [lia|]. apply P2; lia.
      * cbn [andb] in R.
        refine (IH fuel t2 lo (m - 1) _ _ r t' _ _ _ _ _ _ R); [lia|lia|lia|unfold m; lia| |exact C].
        intros q Hq. apply P2. lia.
    + exfalso. apply (ordered m); [lia|exact CM].
Qed.
End QualityProofs.

Lemma quality_loop_unordered : forall (T : Type) (measure : T -> Z -> comparison_ssim * T),
  (forall t q, fst (measure t q) = Unordered) ->
  forall n fuel t lo hi best, (n < fuel)%nat -> 0 <= lo -> lo <= hi -> hi - lo + 1 < 2 ^ Z.of_nat n ->
  exists t', quality_loop measure fuel t lo hi false best = Some (hi, t').
Proof.
  intros T measure U. induction n as [|n IH]; intros fuel t lo hi best F L LE W;
    destruct fuel as [|fuel]; try (exfalso; lia).
  cbn [quality_loop]. replace (lo <=? hi) with true by lia.
  rewrite (quot_mid lo hi L LE). set (m := (lo + hi) / 2).
  assert (Q : lo <= m <= hi) by (unfold m; lia).
  rewrite Nat2Z.inj_succ, Z.pow_succ_r in W by lia.
  assert (ES := U t m). destruct (measure t m) as [x t2]; cbn [fst] in ES; subst x.
  destruct (lo =? hi) eqn:EQ.
  - exists t2. cbn [andb negb]. repeat f_equal. lia.
  - cbn [andb]. apply IH; try lia; unfold m; lia.
Qed.

(** The search itself: it ends after at most eight trial encodings whatever is
    measured, with a quantiser 0..127. *)
Theorem C45_bounds : forall (T : Type) (measure : T -> Z -> comparison_ssim * T) fuel t,
  (9 <= fuel)%nat ->
  exists q t', quality_search measure fuel t = Some (q, t') /\ 0 <= q <= 127.
Proof.
  intros T measure fuel t F. unfold quality_search.
  apply (quality_loop_bounds measure 8 fuel); lia.
Qed.

(** If it were given the qualities: qualities that do not grow with the
    quantiser and are numbers, given by their comparison [c] with the minimum.
    The result is the coarsest quantiser that reaches the minimum, 0 if none. *)
Theorem C45_search_partial : forall (T : Type) (measure : T -> Z -> comparison_ssim * T) (c : Z -> comparison_ssim) fuel t q t',
  (forall t q, fst (measure t q) = c q) ->
  (forall q, 0 <= q <= 127 -> c q <> Unordered) ->
  (forall p q, 0 <= p <= q -> q <= 127 -> c q = AtLeast -> c p = AtLeast) ->
  (9 <= fuel)%nat ->
  quality_search measure fuel t = Some (q, t') ->
  0 <= q <= 127 /\ (forall p, q < p <= 127 -> c p = Below) /\ (c q = AtLeast \/ (q = 0 /\ c 0 = Below)).
Proof.
  intros T measure c fuel t q t' SL O D F R.
  refine (quality_loop_best measure c SL O D 8 fuel t 0 127 false 0 q t' _ _ _ _ _ _ R); lia.
Qed.

(** As the code calls it the measured quality is never computed: the search
    gets 0.0 for every quantiser, so its result depends on nothing but how 0.0
    compares with the minimum. *)
Theorem C45_called : forall (T Q : Type) (cmp : Q -> comparison_ssim) (zero : Q)
    (encode : T -> Z -> Q * T) fuel t q t',
  (9 <= fuel)%nat ->
  quality_search (fun t qi => let (quality, t') := encode t qi in (cmp (returned_quality false quality zero), t')) fuel t = Some (q, t') ->
  q = match cmp zero with Below => 0 | _ => 127 end.
Proof.
  intros T Q cmp zero encode fuel t q t' F R. unfold returned_quality in R.
  assert (SL : forall t qi, fst (let (quality, t') := encode t qi in (cmp zero, t')) = cmp zero)
    by (intros s qi; destruct (encode s qi); reflexivity).
  destruct (cmp zero) eqn:CZ.
  - destruct (C45_search_partial T _ (fun _ => AtLeast) fuel t q t' SL) as [B [P G]]; [discriminate|reflexivity|exact F|exact R|].
    destruct (Z.eq_dec q 127) as [E|E]; [exact E|]. specialize (P 127 ltac:(lia)). discriminate P.
  - destruct (C45_search_partial T _ (fun _ => Below) fuel t q t' SL) as [B [P G]]; [discriminate|discriminate|exact F|exact R|].
    destruct G as [G|[G _]]; [discriminate G|exact G].
  - assert (U := quality_loop_unordered _ _ SL 8 fuel t 0 127 0 F ltac:(lia) ltac:(lia) ltac:(lia)).
    destruct U as [t2 U]. unfold quality_search in R. rewrite U in R. injection R as <- _. reflexivity.
Qed.

(** So the property is false of the code: a quality that falls with the
    quantiser, a minimum that 50 reaches and 51 does not, and the encoder uses
    0. *)
Theorem C45_refuted :
  exists (quality : Z -> Z) (minimum : Z) (best : Z),
    (forall a b, a <= b -> quality b <= quality a) /\ 0 < best <= 127 /\ minimum <= quality best
    /\ quality_search (fun (t : unit) qi => (if minimum <=? returned_quality false (quality qi) 0 then AtLeast else Below, t)) 9 tt = Some (0, tt).
Proof.
  exists (fun q => 1000 - q), 950, 50. repeat split; try lia.
Qed.

Example C45_search_example :
  quality_search (fun (t : unit) qi => (if 950 <=? returned_quality true (1000 - qi) 0 then AtLeast else Below, t)) 9 tt = Some (50, tt).
Proof. reflexivity. Qed.

(** * C46 *)

Theorem C46_prob : forall f t,
  0 <= f < 2 ^ 24 -> 0 <= t < 2 ^ 31 ->
  exists v, branch_prob f t = Some v /\ 0 <= v <= 255 /\ (v = 0 <-> f = 0)
    /\ (0 < f -> Z.abs (256 * f - v * (f + t)) <= f + t).
Proof.
  intros f t F TT. unfold branch_prob, calc_prob, wrap.
  rewrite (Z.mod_small (f + t)) by lia.
  destruct (f =? 0) eqn:E; [exists 0; split; [reflexivity|]; lia|].
  destruct (f + t =? 0) eqn:E2; [exfalso; lia|].
  rewrite Z.mod_small by lia.
  assert (D := Z.div_mod (256 * f) (f + t) ltac:(lia)).
  assert (M := Z.mod_pos_bound (256 * f) (f + t) ltac:(lia)).
  set (q := 256 * f / (f + t)) in *. set (r := (256 * f) mod (f + t)) in *.
  assert (Q : 0 <= q) by (unfold q; apply Z.div_pos; lia).
  assert (Q2 : q <= 256) by (apply Z.div_le_upper_bound; lia).
  clearbody q r. exists (Z.max 1 (Z.min 255 q)). split; [reflexivity|].
  split; [lia|]. split; [lia|]. intros _.
  destruct (Z.eq_dec q 0) as [Z0|Z0]; [subst q; replace (Z.max 1 (Z.min 255 0)) with 1 by lia; lia|].
  destruct (Z.eq_dec q 256) as [Z1|Z1]; [subst q; replace (Z.max 1 (Z.min 255 256)) with 255 by lia; lia|].
  replace (Z.max 1 (Z.min 255 q)) with q by lia. nia.
Qed.

(** From 2^24 on 256 times the count leaves 32 bits: a branch that was false
    every time gets the smallest probability of false instead of the largest. *)
Theorem C46_overflow_refuted : branch_prob (2 ^ 24) 0 = Some 1 /\ branch_prob (2 ^ 24 - 1) 0 = Some 255.
Proof. split; reflexivity. Qed.

(** Updates of the token probabilities: at most one, never 0, never the value
    already in force. *)
Theorem C46_token : forall current f t,
  0 <= f < 2 ^ 24 -> 0 <= t < 2 ^ 31 ->
  exists u, token_update current f t = Some u
    /\ match u with
       | Some p => 1 <= p <= 255 /\ p <> current /\ branch_prob f t = Some p
       | None => f = 0 \/ branch_prob f t = Some current
       end.
Proof.
  intros current f t F TT. destruct (C46_prob f t F TT) as [v [V [B [Z0 _]]]].
  unfold token_update. rewrite V. eexists. split; [reflexivity|].
  destruct ((0 <? v) && negb (v =? current)) eqn:E; [repeat split; try lia; reflexivity|].
  destruct (Z.eq_dec v 0); [left; tauto|right]. f_equal. lia.
Qed.

(** Updates of the motion-vector probabilities: the constructor of the update
    never throws, the 7-bit field holds the value, and the reader gets the
    wanted probability with its last bit cleared. *)
Theorem C46_mv : forall current f t,
  0 <= f < 2 ^ 24 -> 0 <= t < 2 ^ 31 ->
  exists u, mv_update current f t = Some u
    /\ match u with
       | Some h => 1 <= h < 128
           /\ exists p, branch_prob f t = Some p /\ read_half_prob h = 2 * (p / 2) /\ p - 1 <= read_half_prob h <= p
       | None => True
       end.
Proof.
  intros current f t F TT. destruct (C46_prob f t F TT) as [v [V [B [Z0 _]]]].
  unfold mv_update. rewrite V.
  destruct ((1 <? v) && negb (v =? current)) eqn:E; [|exists None; split; [reflexivity|exact I]].
  assert (V2 : 2 <= v <= 255) by lia.
  unfold wrap. rewrite Z.mod_small by lia.
  unfold mv_prob_update, write_prob, read_half_prob, wrap.
  replace (2 * (v / 2) / 2) with (v / 2) by lia.
  destruct (v / 2 =? 0) eqn:E2; [exfalso; lia|]. rewrite Z.mod_small by lia. rewrite Z.eqb_refl.
  eexists. split; [reflexivity|]. split; [lia|]. exists v. rewrite E2. split; [reflexivity|]. lia.
Qed.

Definition is_ref (r s : mb_reference) : bool :=
  match r, s with
  | RCurrent, RCurrent | RLast, RLast | RGolden, RGolden | RAltref, RAltref => true
  | _, _ => false
  end.
(** How many of the macroblocks use a reference. *)
Definition occurrences (r : mb_reference) (refs : list mb_reference) : Z := zlen (filter (is_ref r) refs).

Lemma occurrences_cons : forall r s refs,
  occurrences r (s :: refs) = (if is_ref r s then 1 else 0) + occurrences r refs.
Proof. intros r s refs. unfold occurrences, zlen. cbn [filter]. destruct (is_ref r s); cbn [length]; lia. Qed.

Lemma occurrences_nonneg : forall r refs, 0 <= occurrences r refs.
Proof. intros. unfold occurrences, zlen. lia. Qed.

Lemma count_references : forall refs a b c d e f,
  0 <= a -> 0 <= b -> 0 <= c -> 0 <= d -> 0 <= e -> 0 <= f ->
  a + zlen refs < 2 ^ 32 -> b + zlen refs < 2 ^ 32 -> c + zlen refs < 2 ^ 32 ->
  d + zlen refs < 2 ^ 32 -> e + zlen refs < 2 ^ 32 -> f + zlen refs < 2 ^ 32 ->
  fold_left count_reference refs ((a, b), (c, d), (e, f))
  = ((a + occurrences RCurrent refs, b + occurrences RLast refs + occurrences RGolden refs + occurrences RAltref refs),
     (c + occurrences RLast refs, d + occurrences RGolden refs + occurrences RAltref refs),
     (e + occurrences RGolden refs, f + occurrences RAltref refs)).
Proof.
  induction refs as [|r refs IH]; intros a b c d e f A B C D E F LA LB LC LD LE LF.
  - cbn [fold_left]. unfold occurrences, zlen; cbn [filter length]. repeat match goal with |- (_, _) = (_, _) => f_equal end; lia.
  - cbn [fold_left]. unfold zlen in *. cbn [length] in *.
    destruct r; unfold count_reference, wrap; rewrite ?Z.mod_small by lia; rewrite IH by lia;
      rewrite !occurrences_cons; cbn [is_ref]; repeat match goal with |- (_, _) = (_, _) => f_equal end; lia.
Qed.

(** A probability of the header fits a branch taken [f] times false and [t]
    times true: it is within one 256th, and the old one only if there was no
    false. *)
Definition fits (old f t p : Z) : Prop :=
  (f = 0 -> p = old) /\ (0 < f -> 1 <= p <= 255 /\ Z.abs (256 * f - p * (f + t)) <= f + t).

Lemma header_prob_fits : forall old f t,
  0 <= f < 2 ^ 24 -> 0 <= t < 2 ^ 31 -> exists p, header_prob old f t = Some p /\ fits old f t p.
Proof.
  intros old f t F TT. destruct (C46_prob f t F TT) as [v [V [B [Z0 AB]]]].
  unfold header_prob. rewrite V. unfold wrap. rewrite Z.mod_small by lia.
  eexists. split; [reflexivity|]. unfold fits.
  destruct (0 <? v) eqn:E; split; intros K; try (exfalso; lia); [|lia].
  split; [lia|]. apply AB; exact K.
Qed.

(** The three probabilities of the references fit the macroblocks of the
    frame. *)
Theorem C46_references : forall old_inter old_last old_golden refs,
  zlen refs < 2 ^ 24 ->
  exists p q r, optimize_interframe_probs old_inter old_last old_golden refs = Some (p, q, r)
    /\ fits old_inter (occurrences RCurrent refs) (zlen refs - occurrences RCurrent refs) p
    /\ fits old_last (occurrences RLast refs) (occurrences RGolden refs + occurrences RAltref refs) q
    /\ fits old_golden (occurrences RGolden refs) (occurrences RAltref refs) r.
Proof.
  intros oi ol og refs L.
  assert (SUM : occurrences RCurrent refs + occurrences RLast refs + occurrences RGolden refs + occurrences RAltref refs = zlen refs).
  { clear L. induction refs as [|r refs IH]; [reflexivity|]. rewrite !occurrences_cons. unfold zlen in *. cbn [length].
    destruct r; cbn [is_ref]; lia. }
  assert (N1 := occurrences_nonneg RCurrent refs). assert (N2 := occurrences_nonneg RLast refs).
  assert (N3 := occurrences_nonneg RGolden refs). assert (N4 := occurrences_nonneg RAltref refs).
  unfold optimize_interframe_probs. rewrite count_references by lia.
  destruct (header_prob_fits oi (0 + occurrences RCurrent refs) (0 + occurrences RLast refs + occurrences RGolden refs + occurrences RAltref refs)) as [p [P FP]]; [lia|lia|].
  destruct (header_prob_fits ol (0 + occurrences RLast refs) (0 + occurrences RGolden refs + occurrences RAltref refs)) as [q [Q FQ]]; [lia|lia|].
  destruct (header_prob_fits og (0 + occurrences RGolden refs) (0 + occurrences RAltref refs)) as [r [R FR]]; [lia|lia|].
  rewrite P, Q, R. exists p, q, r. split; [reflexivity|].
  replace (zlen refs - occurrences RCurrent refs) with (0 + occurrences RLast refs + occurrences RGolden refs + occurrences RAltref refs) by lia.
  rewrite !Z.add_0_l in *. auto.
Qed.

(** The probability of macroblocks without skipped coefficients. *)
Theorem C46_skip : forall nonzero,
  nonzero <> [] -> zlen nonzero < 2 ^ 24 ->
  let f := zlen (filter (fun b => b) nonzero) in
  exists p, optimize_prob_skip nonzero = Some p /\ 0 <= p <= 255 /\ (p = 0 <-> f = 0)
    /\ (0 < f -> Z.abs (256 * f - p * zlen nonzero) <= zlen nonzero).
Proof.
  intros nonzero NE L f.
  assert (FB : 0 <= f <= zlen nonzero).
  { unfold f, zlen. clear. induction nonzero as [|b l IH]; [cbn; lia|]. cbn [filter]. destruct b; cbn [length]; lia. }
  destruct (C46_prob f (zlen nonzero - f)) as [v [V [B [Z0 AB]]]]; [lia|lia|].
  unfold optimize_prob_skip. fold f. unfold branch_prob in V.
  replace (f + (zlen nonzero - f)) with (zlen nonzero) in * by lia.
  replace (wrap 32 f) with f by (unfold wrap; rewrite Z.mod_small; lia).
  rewrite V. exists v. split; [f_equal; unfold wrap; apply Z.mod_small; lia|]. auto.
Qed.

Example C46_example :
  branch_prob 3 5 = Some 96 /\ mv_update 100 3 5 = Some (Some 48) /\ token_update 96 3 5 = Some None
  /\ optimize_interframe_probs 1 2 3 [RLast; RLast; RGolden; RCurrent] = Some (64, 170, 255)
  /\ optimize_prob_skip [true; false; false; true] = Some 128.
Proof. repeat split; reflexivity. Qed.

(** * C60 *)

Section LevelProofs.
Context {Q : Type}.
Variable gt : Q -> Q -> bool.
Variable quality : Z -> Q.

Lemma level_loop_spec : forall n fuel level hi bq best,
  (n < fuel)%nat -> hi - level + 1 <= Z.of_nat n -> level <= hi + 1 -> level = best + 1 -> bq = quality best ->
  let r := level_loop gt quality fuel level hi bq best in
  best <= r <= hi /\ (forall l, best <= l < r -> gt (quality (l + 1)) (quality l) = true)
  /\ (r < hi -> gt (quality (r + 1)) (quality r) = false).
Proof.
  induction n as [|n IH]; intros fuel level hi bq best F W L E B; destruct fuel as [|fuel]; try (exfalso; lia); cbn [level_loop].
  - destruct (level <=? hi) eqn:E2; [exfalso; lia|]. split; [lia|]. split; intros; exfalso; lia.
  - destruct (level <=? hi) eqn:E2; [|split; [lia|]; split; intros; exfalso; lia].
    destruct (gt (quality level) bq) eqn:G.
    + destruct (IH fuel (level + 1) hi (quality level) level) as [A1 [A2 A3]]; [lia|lia|lia|reflexivity|reflexivity|].
      split; [lia|]. split; [|exact A3]. intros l HL. destruct (Z.eq_dec l best) as [->|NE]; [|apply A2; lia].
      rewrite <- E. rewrite <- B. exact G.
    + split; [lia|]. split; [intros; exfalso; lia|]. intros _. rewrite <- E, <- B. exact G.
Qed.
End LevelProofs.

(** The levels allowed after [last]: at most one step away, and 0..63. *)
Definition level_allowed (last : option Z) (l : Z) : Prop :=
  0 <= l <= 63 /\ match last with None => True | Some p => p - 1 <= l <= p + 1 end.

Definition last_level_ok (last : option Z) : Prop := match last with None => True | Some l => 0 <= l <= 63 end.

(** The chosen level is allowed, the quality grows on the way to it from the
    lowest allowed level, and does not grow with the next one if that is
    allowed. The hypothesis about the start holds unless a quality is not a
    number (or at most -1). *)
Theorem C60_level : forall (Q : Type) (gt : Q -> Q -> bool) quality start last,
  last_level_ok last -> (forall l, level_allowed last l -> gt (quality l) start = true) ->
  let r := level_search gt quality start last in
  level_allowed last r
  /\ (forall l, level_allowed last l -> l < r -> gt (quality (l + 1)) (quality l) = true)
  /\ (level_allowed last (r + 1) -> gt (quality (r + 1)) (quality r) = false).
Proof.
  intros Q gt quality start last K ST. unfold level_search.
  destruct (level_window last) as [lo hi] eqn:W.
  assert (A : 0 <= lo <= hi /\ hi <= 63 /\ forall l, level_allowed last l <-> lo <= l <= hi).
  { destruct last as [p|]; unfold level_window in W; cbn [last_level_ok] in K; injection W as <- <-; unfold level_allowed.
    - destruct (0 <? p) eqn:E; (split; [lia|]; split; [lia|]; intros l; lia).
    - split; [lia|]. split; [lia|]. intros l; lia. }
  destruct A as [B [U A]]. cbv zeta. change 65%nat with (S 64).
  assert (SF : (63 < 64)%nat) by lia. revert SF. generalize 64%nat. intros fuel SF. cbn [level_loop].
  destruct (lo <=? hi) eqn:E; [|exfalso; lia].
  rewrite (ST lo) by (apply A; lia).
  destruct (level_loop_spec gt quality 63 fuel (lo + 1) hi (quality lo) lo) as [R1 [R2 R3]]; [exact SF|lia|lia|reflexivity|reflexivity|].
  split; [apply A; lia|]. split.
  - intros l HL LT. apply A in HL. apply R2. lia.
  - intros N. apply A in N. apply R3. lia.
Qed.

(** If the quality first grows and then does not, the chosen level is a best
    one. Qualities as integers, start below all of them. *)
Theorem C60_unimodal : forall (quality : Z -> Z) start last peak,
  last_level_ok last -> (forall l, level_allowed last l -> start < quality l) ->
  (forall l, level_allowed last l -> level_allowed last (l + 1) -> l < peak -> quality l < quality (l + 1)) ->
  (forall l, level_allowed last l -> level_allowed last (l + 1) -> peak <= l -> quality (l + 1) <= quality l) ->
  forall l, level_allowed last l ->
  quality l <= quality (level_search (fun a b => b <? a) quality start last).
Proof.
  intros quality start last peak K ST UP DN.
  destruct (C60_level Z (fun a b => b <? a) quality start last K) as [A [B C]].
  { intros l HL. specialize (ST l HL). lia. }
  set (r := level_search (fun a b => b <? a) quality start last) in *. clearbody r.
  assert (CONV : forall a b m, level_allowed last a -> level_allowed last b -> a <= m <= b -> level_allowed last m)
    by (intros a b m; destruct last as [p|]; unfold level_allowed; lia).
  assert (UPTO : forall n l, level_allowed last l -> l + Z.of_nat n = r -> quality l <= quality r).
  { induction n as [|n IH]; intros l HL E; [replace l with r by lia; lia|].
    assert (X := B l HL ltac:(lia)). cbv beta in X.
    assert (Y := IH (l + 1) ltac:(apply (CONV l r); [exact HL|exact A|lia]) ltac:(lia)). lia. }
  assert (DOWN : forall n l, level_allowed last l -> r + Z.of_nat n = l -> quality l <= quality r).
  { induction n as [|n IH]; intros l HL E; [replace l with r by lia; lia|].
    assert (HP : level_allowed last (l - 1)) by (apply (CONV r l); [exact A|exact HL|lia]).
    assert (Y := IH (l - 1) HP ltac:(lia)).
    assert (N : level_allowed last (r + 1)) by (apply (CONV r l); [exact A|exact HL|lia]).
    assert (X := C N). cbv beta in X.
    assert (PK : peak <= r). { destruct (Z_lt_le_dec r peak) as [G|G]; [|exact G]. assert (Z0 := UP r A N G). lia. }
    assert (HL1 : level_allowed last (l - 1 + 1)) by (replace (l - 1 + 1) with l by lia; exact HL).
    assert (Z1 := DN (l - 1) HP HL1 ltac:(lia)). replace (l - 1 + 1) with l in Z1 by lia. lia. }
  intros l HL. destruct (Z_le_gt_dec l r) as [G|G].
  - apply (UPTO (Z.to_nat (r - l)) l HL). lia.
  - apply (DOWN (Z.to_nat (l - r)) l HL). lia.
Qed.

(** If the first quality is not greater than the start (it is not a number, for
    instance), the level is 0 even if that is not allowed. *)
Theorem C60_unordered_refuted : forall (Q : Type) (gt : Q -> Q -> bool) quality start,
  gt (quality 19) start = false -> level_search gt quality start (Some 20) = 0 /\ ~ level_allowed (Some 20) 0.
Proof.
  intros Q gt quality start G. split; [|unfold level_allowed; lia].
  unfold level_search, level_window. cbn [level_loop Z.ltb Z.leb Z.compare Pos.compare Pos.compare_cont].
  change (20 - 1) with 19. cbn [Z.add Z.min Z.compare Pos.compare Pos.compare_cont Z.leb Pos.add]. rewrite G. reflexivity.
Qed.

(** A quality with two local maxima: the search stops at the first. *)
Example C60_example :
  level_search (fun a b => b <? a) (fun l => if l =? 9 then 100 else Z.min l (12 - l)) (-1) None = 6
  /\ level_search (fun a b => b <? a) (fun l => Z.min l (40 - l)) (-1) (Some 19) = 20.
Proof. split; reflexivity. Qed.

Print Assumptions C44_bounds.
Print Assumptions C44_fits.
Print Assumptions C44_best.
Print Assumptions C44_unbounded_refuted.
Print Assumptions C44_monotone_needed_refuted.
Print Assumptions C45_bounds.
Print Assumptions C45_search_partial.
Print Assumptions C45_called.
Print Assumptions C45_refuted.
Print Assumptions C46_prob.
Print Assumptions C46_overflow_refuted.
Print Assumptions C46_token.
Print Assumptions C46_mv.
Print Assumptions C46_references.
Print Assumptions C46_skip.
Print Assumptions C60_level.
Print Assumptions C60_unimodal.
Print Assumptions C60_unordered_refuted.
