(** * Facts about decimal text of floating-point numbers. *)
From Coq Require Import Strings.String Strings.Byte.
From Verif Require Import Base BaseFacts F32 F32Facts TextIO TextSpec TextFacts F32Text.
Local Open Scope N_scope.

(** ** Rounding *)
Lemma div_eucl_pair x d : N.div_eucl x d = (x / d, x mod d).
Proof. apply surjective_pairing. Qed.
Lemma rne_exact q d : d <> 0 -> rne (q * d) d = q.
Proof.
  intros D. unfold rne. rewrite div_eucl_pair, N.div_mul, N.mod_mul by exact D. rewrite N.mul_0_r.
  destruct (N.compare_spec 0 d); try lia; reflexivity.
Qed.
Lemma log2_ratio_spec x b : b <> 0 -> log2_ratio x b = N.log2 (x / b).
Proof.
  intros B. unfold log2_ratio. destruct (N.eq_dec (x / b) 0) as [Z|Z].
  - rewrite Z. change (N.log2 0) with 0. apply N.div_small_iff in Z; [|exact B].
    assert (N.log2 x <= N.log2 b) as L by (apply N.log2_le_mono; lia).
    replace (N.log2 x - N.log2 b) with 0 by lia. destruct (b * 2 ^ 0 <=? x); reflexivity.
  - assert (b <= x) as H. { destruct (N.le_gt_cases b x) as [L|L]; [exact L|]. exfalso. apply Z. apply N.div_small. exact L. }
    symmetry. set (l := N.log2 x - N.log2 b).
    pose proof (N.log2_spec x ltac:(lia)) as [X1 X2]. pose proof (N.log2_spec b ltac:(lia)) as [B1 B2].
    assert (N.log2 b <= N.log2 x) as Lb by (apply N.log2_le_mono; lia).
    assert (N.log2 x = N.log2 b + l) as E by lia. rewrite E in *. rewrite !N.pow_succ_r', N.pow_add_r in *.
    set (u := 2 ^ N.log2 b) in *. set (v := 2 ^ l) in *.
    assert (v <> 0) as V0 by (apply N.pow_nonzero; discriminate).
    pose proof (N.div_mod x b B) as DM. pose proof (N.mod_lt x b B) as ML. set (q := x / b) in *. set (r := x mod b) in *.
    destruct (N.leb_spec (b * v) x) as [L|L].
    + apply N.log2_unique; [lia|]. fold v. rewrite N.pow_succ_r'. fold v. split.
      * apply N.div_le_lower_bound; [exact B|lia].
      * apply N.div_lt_upper_bound; [exact B|]. nia.
    + assert (l <> 0) as L0. { intros K. unfold v in L. rewrite K in L. change (2 ^ 0) with 1 in L. lia. }
      assert (v = 2 * 2 ^ (l - 1)) as Ev. { unfold v. rewrite <- N.pow_succ_r'. f_equal. lia. }
      apply N.log2_unique; [lia|]. split.
      * apply N.div_le_lower_bound; [exact B|]. nia.
      * apply N.div_lt_upper_bound; [exact B|]. replace (N.succ (l - 1)) with l by lia. fold v. lia.
Qed.
Lemma pow2_nonzero k : 2 ^ k <> 0.
Proof. apply N.pow_nonzero. discriminate. Qed.
Lemma pow10_nonzero k : 10 ^ k <> 0.
Proof. apply N.pow_nonzero. discriminate. Qed.

(** Mantissa and exponent of a finite number. *)
Definition fits (m k : N) : Prop := m < 16777216 /\ (k = 0 \/ 8388608 <= m).
Lemma fits_log2 m k : fits m k -> N.log2 (m * 2 ^ k) - 23 = k.
Proof.
  intros [H [->|L]].
  - rewrite N.pow_0_r, N.mul_1_r. destruct (N.eq_dec m 0) as [->|Z]; [reflexivity|].
    assert (N.log2 m < 24) by (apply N.log2_lt_pow2; [lia|exact H]). lia.
  - rewrite N.log2_mul_pow2 by lia. assert (N.log2 m = 23) as ->; [|lia].
    apply N.log2_unique; [lia|]. split; [exact L|exact H].
Qed.
Lemma round_ratio_exact a b m k : b <> 0 -> fits m k -> a * 2 ^ 149 = b * (m * 2 ^ k) ->
  round_ratio a b = N.min (k * 8388608 + m) inf_bits.
Proof.
  intros B F E. unfold round_ratio. rewrite log2_ratio_spec by exact B. rewrite E.
  rewrite (N.mul_comm b (m * 2 ^ k)), N.div_mul by exact B. rewrite (fits_log2 m k F). f_equal. f_equal.
  replace (m * 2 ^ k * b) with (m * (b * 2 ^ k)) by lia. apply rne_exact.
  pose proof (pow2_nonzero k). lia.
Qed.

Lemma units_fits mag : exists m k, fits m k /\ mag = k * 8388608 + m /\ magnitude_units mag = m * 2 ^ k.
Proof.
  unfold magnitude_units. set (k := mag / 8388608 - 1).
  pose proof (N.div_mod mag 8388608 ltac:(discriminate)) as D. pose proof (N.mod_lt mag 8388608 ltac:(discriminate)) as L.
  exists (mag - k * 8388608), k. unfold fits. split; [|split; [lia|reflexivity]].
  split; [lia|]. destruct (N.eq_dec k 0); [auto|right; lia].
Qed.
Lemma units_pos mag : 0 < mag -> 0 < magnitude_units mag.
Proof.
  intros P. destruct (units_fits mag) as (m & k & [F1 F2] & E & ->). pose proof (pow2_nonzero k). nia.
Qed.

(** ** The shortest decimal is read back *)
Lemma exact_candidate mag : 0 < mag -> mag <= inf_bits ->
  round_dec (magnitude_units mag * 5 ^ 149) (-149) = mag.
Proof.
  intros P L. unfold round_dec. pose proof (units_pos mag P) as U. destruct (units_fits mag) as (m & k & F & E & EU).
  assert (1 <= 5 ^ 149) as P5 by (apply N.leb_le; vm_compute; reflexivity).
  destruct (N.eqb_spec (magnitude_units mag * 5 ^ 149) 0) as [Z|_]; [nia|].
  change (39 <=? -149)%Z with false. cbv iota.
  destruct (Z.ltb_spec (-149 + Z.of_N (N.log2 (magnitude_units mag * 5 ^ 149))) (-46)) as [K|_].
  { exfalso. assert (N.log2 (5 ^ 149) <= N.log2 (magnitude_units mag * 5 ^ 149)) as M by (apply N.log2_le_mono; nia).
    assert (N.log2 (5 ^ 149) = 345) as E5 by (vm_compute; reflexivity). lia. }
  rewrite (round_ratio_exact _ _ m k (pow10_nonzero _) F).
  - lia.
  - rewrite EU. change (10 ^ 149) with ((2 * 5) ^ 149). rewrite N.pow_mul_l. lia.
Qed.
Lemma exact_candidates mag : 0 < mag -> candidates (magnitude_units mag) (-149) =
  [magnitude_units mag * 5 ^ 149; magnitude_units mag * 5 ^ 149 + 1].
Proof.
  intros P. pose proof (units_pos mag P) as U. unfold candidates.
  assert (magnitude_units mag * 10 ^ 149 = (magnitude_units mag * 5 ^ 149) * 2 ^ 149) as ->.
  { change (10 ^ 149) with ((2 * 5) ^ 149). rewrite N.pow_mul_l. lia. }
  assert (1 <= 5 ^ 149) as P5 by (apply N.leb_le; vm_compute; reflexivity).
  set (q := magnitude_units mag * 5 ^ 149) in *. assert (1 <= q) as Q by nia.
  pose proof (pow2_nonzero 149) as T. set (t := 2 ^ 149) in *.
  destruct (N.ltb_spec (4 * (q * t)) t) as [K|_]; [nia|].
  rewrite div_eucl_pair, N.div_mul, N.mod_mul by exact T. destruct (N.ltb_spec (2 * 0) t) as [_|K]; [reflexivity|lia].
Qed.
Lemma shortest_reads fuel : forall mag e d e', 0 < mag -> mag <= inf_bits -> (Z.of_nat fuel = e + 149)%Z ->
  shortest fuel mag e = (d, e') -> round_dec d e' = mag /\ (-149 <= e' <= e)%Z.
Proof.
  induction fuel as [|fuel IH]; intros mag e d e' P L F; cbn [shortest].
  - assert (e = -149)%Z as -> by lia. rewrite exact_candidates by exact P. cbn [find].
    rewrite exact_candidate, N.eqb_refl by assumption. intros H. inv H. split; [apply exact_candidate; assumption|lia].
  - destruct (find _ _) as [d0|] eqn:E.
    + intros H. inv H. apply find_some in E as [_ E]. apply N.eqb_eq in E. split; [exact E|lia].
    + intros H. apply IH in H as [H1 H2]; try assumption; [|lia]. split; [exact H1|lia].
Qed.
Lemma shortest_decimal_reads mag d e : 0 < mag -> mag <= inf_bits -> shortest_decimal mag = (d, e) ->
  round_dec d e = mag /\ (-149 <= e <= 38)%Z.
Proof. intros P L. apply shortest_reads; [exact P|exact L|reflexivity]. Qed.

(** ** Syntax *)
Lemma digit_value_digit d : d < 10 -> digit_value (Nb (48 + d)) = Some d.
Proof. intros H. apply digit_value_spec. auto. Qed.
Lemma eat_digits_app ds : forall acc n rest, Forall (fun d => d < 10) ds ->
  (forall b r, rest = b :: r -> digit_value b = None) ->
  eat_digits (digits_text ds ++ rest) acc n = (acc * 10 ^ lenN ds + digits_value ds, n + lenN ds, rest).
Proof.
  induction ds as [|d ds IH]; intros acc n rest F R.
  - cbn [digits_text map app digits_value]. rewrite lenN_nil. change (10 ^ 0) with 1. rewrite N.mul_1_r, !N.add_0_r.
    destruct rest as [|b r]; cbn [eat_digits]; [reflexivity|]. rewrite (R b r eq_refl). reflexivity.
  - inv F. cbn [digits_text map app eat_digits digits_value]. rewrite digit_value_digit by assumption.
    fold (digits_text ds). rewrite IH by assumption. rewrite lenN_cons, N.pow_add_r. change (10 ^ 1) with 10.
    f_equal. f_equal; lia.
Qed.
Lemma zeros_text n : zeros n = digits_text (repeat 0 (N.to_nat n)).
Proof. unfold zeros, digits_text. induction (N.to_nat n) as [|k IH]; cbn [repeat map]; [reflexivity|]. rewrite <- IH. reflexivity. Qed.
Lemma zeros_digits n : Forall (fun d => d < 10) (repeat 0 (N.to_nat n)).
Proof. apply Forall_forall. intros x H. apply repeat_spec in H. subst. lia. Qed.
Lemma zeros_value n : digits_value (repeat 0 n) = 0.
Proof. induction n as [|n IH]; cbn [repeat digits_value]; [reflexivity|]. rewrite IH. lia. Qed.
Lemma zeros_len n : lenN (repeat 0 (N.to_nat n)) = n.
Proof. unfold lenN. rewrite repeat_length. lia. Qed.

Lemma parse_int ds : ds <> [] -> Forall (fun d => d < 10) ds -> parse_decimal (digits_text ds) = Some (digits_value ds, 0%Z).
Proof.
  intros N0 F. unfold parse_decimal. rewrite <- (app_nil_r (digits_text ds)).
  rewrite eat_digits_app by (auto; discriminate). destruct (N.eqb_spec (0 + lenN ds) 0) as [K|_].
  - destruct ds; [contradiction|]. rewrite lenN_cons in K. lia.
  - cbn [parse_exponent]. f_equal.
Qed.
Lemma parse_point ds fs : ds <> [] -> Forall (fun d => d < 10) ds -> Forall (fun d => d < 10) fs ->
  parse_decimal (digits_text ds ++ "."%byte :: digits_text fs) = Some (digits_value (ds ++ fs), - Z.of_N (lenN fs))%Z.
Proof.
  intros N0 F1 F2. unfold parse_decimal. rewrite eat_digits_app; [|exact F1|intros b r H; inv H; reflexivity].
  change (byte_eqb "." ".") with true. cbv iota. rewrite <- (app_nil_r (digits_text fs)).
  rewrite eat_digits_app by (auto; discriminate). destruct (N.eqb_spec (0 + lenN ds + (0 + lenN fs)) 0) as [K|_].
  - destruct ds; [contradiction|]. rewrite lenN_cons in K. lia.
  - cbn [parse_exponent]. rewrite digits_value_app. reflexivity.
Qed.
Lemma digits_text_take n ds : takeN n (digits_text ds) = digits_text (takeN n ds).
Proof. unfold takeN, digits_text. apply firstn_map. Qed.
Lemma digits_text_drop n ds : dropN n (digits_text ds) = digits_text (dropN n ds).
Proof. unfold dropN, digits_text. apply skipn_map. Qed.
Lemma digits_text_app a b : digits_text (a ++ b) = digits_text a ++ digits_text b.
Proof. apply map_app. Qed.
Lemma digits_text_len ds : lenN (digits_text ds) = lenN ds.
Proof. unfold lenN, digits_text. rewrite map_length. reflexivity. Qed.

(** The digits of a decimal, and those after the point. *)
Lemma positional_digits d e : exists ds fs, ds <> [] /\ Forall (fun x => x < 10) ds /\ Forall (fun x => x < 10) fs /\
  positional d e = digits_text ds ++ (match fs with [] => [] | _ => "."%byte :: digits_text fs end) /\
  digits_value (ds ++ fs) = d * 10 ^ Z.to_N e /\ lenN fs = Z.to_N (- e).
Proof.
  destruct (dec_print_digits d) as (ds & N0 & F & V & E). unfold positional. rewrite E, digits_text_len.
  destruct e as [|p|p].
  - exists ds, []. rewrite !app_nil_r. change (10 ^ Z.to_N 0) with 1. repeat split; auto. lia.
  - exists (ds ++ repeat 0 (N.to_nat (Z.to_N (Zpos p)))), []. rewrite !app_nil_r. split; [destruct ds; [contradiction|discriminate]|].
    split; [apply Forall_app; split; [auto|apply zeros_digits]|]. split; [auto|]. rewrite zeros_text, digits_text_app. split; [reflexivity|].
    rewrite digits_value_app, zeros_value, zeros_len, V. split; [lia|reflexivity].
  - change (Z.to_N (Z.neg p)) with 0. change (10 ^ 0) with 1. rewrite N.mul_1_r. change (Z.to_N (- Z.neg p)) with (N.pos p).
    destruct (N.leb_spec (lenN ds) (N.pos p)) as [L|L].
    + exists [0], (repeat 0 (N.to_nat (N.pos p - lenN ds)) ++ ds). split; [discriminate|]. split; [repeat constructor|].
      split; [apply Forall_app; split; [apply zeros_digits|auto]|].
      split; [|split].
      * rewrite zeros_text. destruct (_ ++ ds) eqn:K; [destruct ds; [contradiction|destruct (repeat _ _); discriminate]|].
        rewrite <- digits_text_app, K. reflexivity.
      * cbn [app digits_value]. rewrite digits_value_app, zeros_value, V. lia.
      * rewrite lenN_app, zeros_len. lia.
    + exists (takeN (lenN ds - N.pos p) ds), (dropN (lenN ds - N.pos p) ds).
      assert (lenN (takeN (lenN ds - N.pos p) ds) = lenN ds - N.pos p) as LT by (rewrite lenN_takeN; lia).
      assert (lenN (dropN (lenN ds - N.pos p) ds) = N.pos p) as LD by (rewrite lenN_dropN; lia).
      pose proof (takeN_dropN (lenN ds - N.pos p) ds) as TD.
      assert (Forall (fun x => x < 10) (takeN (lenN ds - N.pos p) ds ++ dropN (lenN ds - N.pos p) ds)) as FF by (rewrite TD; exact F).
      apply Forall_app in FF as [F1 F2].
      rewrite TD, V, LD, digits_text_take, digits_text_drop.
      split; [intros K; rewrite K, lenN_nil in LT; lia|]. split; [exact F1|]. split; [exact F2|]. split; [|auto].
      destruct (dropN _ ds) eqn:K; [rewrite lenN_nil in LD; lia|reflexivity].
Qed.
Lemma parse_positional d e : exists d' e', parse_decimal (positional d e) = Some (d', e') /\
  ((0 <= e)%Z /\ d' = d * 10 ^ Z.to_N e /\ e' = 0%Z \/ d' = d /\ e' = e).
Proof.
  destruct (positional_digits d e) as (ds & fs & N0 & F1 & F2 & -> & V & L). destruct fs as [|f fs].
  - rewrite app_nil_r in *. rewrite parse_int by assumption. exists (digits_value ds), 0%Z. split; [reflexivity|]. left. rewrite lenN_nil in L. rewrite V. repeat split; lia.
  - rewrite parse_point by assumption. rewrite L, V. exists d, e. rewrite lenN_cons in L.
    assert (e < 0)%Z by lia. split; [|auto]. f_equal. f_equal; [|lia]. replace (Z.to_N e) with 0 by lia. rewrite N.pow_0_r. lia.
Qed.
Lemma round_dec_shift d e : (0 <= e <= 38)%Z -> round_dec (d * 10 ^ Z.to_N e) 0 = round_dec d e.
Proof.
  intros H. unfold round_dec. pose proof (pow10_nonzero (Z.to_N e)) as P.
  destruct (N.eqb_spec d 0) as [->|D]; [reflexivity|].
  destruct (N.eqb_spec (d * 10 ^ Z.to_N e) 0) as [K|_]; [nia|].
  change (39 <=? 0)%Z with false. destruct (Z.leb_spec 39 e) as [K|_]; [lia|]. cbv iota.
  destruct (Z.ltb_spec (0 + Z.of_N (N.log2 (d * 10 ^ Z.to_N e))) (-46)) as [K|_]; [lia|].
  destruct (Z.ltb_spec (e + Z.of_N (N.log2 d)) (-46)) as [K|_]; [lia|].
  change (10 ^ Z.to_N 0) with 1. rewrite N.mul_1_r. destruct e; try lia; reflexivity.
Qed.

(** ** The law *)
Lemma bits_sign_mag n : n < two32 -> exists neg : bool, exists mag : N,
  n = (if neg then 2147483648 else 0) + mag /\ mag < 2147483648 /\ n mod 2147483648 = mag /\ (2147483648 <=? n) = neg.
Proof.
  intros H. unfold two32 in H. destruct (N.leb_spec 2147483648 n) as [L|L].
  - exists true, (n - 2147483648). repeat split; try lia.
  - exists false, n. repeat split; lia.
Qed.
Lemma is_nan_mag x : f32_is_nan x = (inf_bits <? f32_bits x mod 2147483648).
Proof.
  unfold f32_is_nan, f32_to_sf. pose proof (bits_split _ (f32_bits_lt x)) as (s & e & m & Hs & He & Hm & Hn & E1 & E2 & E3).
  rewrite E1, E2, E3.
  assert (f32_bits x mod 2147483648 = e * 8388608 + m) as ->.
  { rewrite Hn. rewrite <- N.add_assoc, N.add_comm, N.mod_add by discriminate. apply N.mod_small. lia. }
  unfold inf_bits. destruct (N.eqb_spec e 0) as [->|He0].
  - destruct m; destruct (N.ltb_spec 2139095040 (0 * 8388608 + N.pos p)) || destruct (N.ltb_spec 2139095040 (0 * 8388608 + 0)); lia || reflexivity.
  - destruct (N.eqb_spec e 255) as [->|He1].
    + destruct (N.eqb_spec m 0) as [->|Hz]; [reflexivity|].
      destruct (N.ltb_spec 2139095040 (255 * 8388608 + m)); [reflexivity|lia].
    + destruct (m + 8388608) eqn:Ep; [lia|]. destruct (N.ltb_spec 2139095040 (e * 8388608 + m)); [lia|reflexivity].
Qed.

Lemma print_mag_spec mag : mag <= inf_bits -> parse_magnitude (print_mag mag) = Some mag /\
  exists b s, print_mag mag = b :: s /\ b <> "-"%byte /\ b <> "+"%byte /\ Forall (fun b => 33 <= bN b <= 126) (b :: s).
Proof.
  intros L. unfold print_mag. destruct (N.eqb_spec mag inf_bits) as [->|NI].
  { split; [vm_compute; reflexivity|]. exists "i"%byte, (list_byte_of_string "nf"). split; [reflexivity|]. split; [discriminate|]. split; [discriminate|].
    repeat (constructor; [vm_compute; split; discriminate|]). constructor. }
  destruct (N.eqb_spec mag 0) as [->|NZ].
  { split; [vm_compute; reflexivity|]. exists "0"%byte, []. split; [reflexivity|]. split; [discriminate|]. split; [discriminate|].
    repeat (constructor; [vm_compute; split; discriminate|]). constructor. }
  destruct (shortest_decimal mag) as [d e] eqn:S. apply shortest_decimal_reads in S as [R E]; [|lia|lia].
  destruct (parse_positional d e) as (d' & e' & P & Q). unfold parse_magnitude. rewrite P. split.
  - f_equal. destruct Q as [(E0 & -> & ->)|[-> ->]]; [|exact R]. rewrite round_dec_shift by lia. exact R.
  - destruct (positional_digits d e) as (ds & fs & N0 & F1 & F2 & -> & _ & _).
    destruct ds as [|x ds]; [contradiction|]. inv F1. exists (Nb (48 + x)). eexists. split; [reflexivity|].
    assert (forall b, 48 <= bN b <= 57 -> b <> "-"%byte /\ b <> "+"%byte) as NS.
    { intros b B. split; intros ->; vm_compute in B; destruct B as [B1 B2]; apply B1; reflexivity. }
    destruct (NS (Nb (48 + x))) as [S1 S2]; [rewrite bN_Nb_small by lia; lia|]. split; [exact S1|]. split; [exact S2|].
    assert (forall l, Forall (fun d => d < 10) l -> Forall (fun b => 33 <= bN b <= 126) (digits_text l)) as DT.
    { intros l Fl. apply Forall_forall. intros b Hb. pose proof (digits_text_range l b Fl Hb). lia. }
    constructor; [rewrite bN_Nb_small by lia; lia|]. apply Forall_app. split; [apply DT; assumption|].
    destruct fs; [constructor|]. constructor; [vm_compute; split; discriminate|]. apply DT. exact F2.
Qed.

Lemma rust_ftext_law : ftext_law rust_ftext.
Proof.
  intros x. cbn [ft_print ft_parse rust_ftext]. rewrite is_nan_mag. unfold f32_print.
  destruct (bits_sign_mag _ (f32_bits_lt x)) as (neg & mag & E & ML & M & S). rewrite M, S.
  destruct (N.ltb_spec inf_bits mag) as [NaN|Fin].
  - split; [|split; [discriminate|repeat (constructor; [vm_compute; split; discriminate|]); constructor]].
    eexists. split; [vm_compute; reflexivity|]. split; [discriminate|]. intros _. vm_compute. reflexivity.
  - destruct (print_mag_spec mag Fin) as (P & b & s & EP & NM & NP & R).
    assert (with_sign neg mag = x) as W by (unfold with_sign; rewrite <- E; apply f32_of_bits_bits).
    split; [|rewrite EP; destruct neg; (split; [discriminate|]); [constructor; [vm_compute; split; discriminate|]|]; exact R].
    exists x. split; [|split; [reflexivity|discriminate]]. destruct neg.
    + cbn [app f32_parse]. change (byte_eqb "-" "-") with true. cbv iota. rewrite P. cbn [option_map]. rewrite W. reflexivity.
    + cbn [app]. rewrite EP. cbn [f32_parse].
      destruct (byte_eqb b "-") eqn:B1; [apply byte_eqb_eq in B1; contradiction|].
      destruct (byte_eqb b "+") eqn:B2; [apply byte_eqb_eq in B2; contradiction|].
      rewrite <- EP, P. cbn [option_map]. rewrite W. reflexivity.
Qed.
