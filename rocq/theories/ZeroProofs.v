(* The calendar; which times are zero; what survives. *)
From Verif Require Import Base EqualModel EqualSpec Utf8 Decimal CodecModel CodecSpec CodecProofs CodecTime ZeroModel.
Local Open Scope string_scope.

Lemma next_day y m d : day_number y m (d + 1) = (day_number y m d + 1)%Z.
Proof. unfold day_number. lia. Qed.
Lemma next_month y m : (1 <= m <= 11)%Z -> day_number y (m + 1) 1 = (day_number y m (days_in m y) + 1)%Z.
Proof.
  intros H. assert (m = 1 \/ m = 2 \/ m = 3 \/ m = 4 \/ m = 5 \/ m = 6 \/ m = 7 \/ m = 8 \/ m = 9 \/ m = 10 \/ m = 11)%Z as C by lia.
  unfold day_number, month_days. repeat (destruct C as [->|C]; [cbn [fold_left Z.add Z.ltb Z.compare Pos.compare Pos.compare_cont Pos.add Pos.succ]; cbn [Z.ltb Z.compare Pos.compare Pos.compare_cont]; lia|]). subst m. cbn [fold_left Z.add Z.ltb Z.compare Pos.compare Pos.compare_cont Pos.add Pos.succ]. lia.
Qed.
Lemma year_step y : year_days (y + 1) = (year_days y + if leap y then 366 else 365)%Z.
Proof.
  unfold year_days, leap. replace (y + 1 - 1)%Z with y by lia.
  assert (forall k, (0 < k -> y / k = (y - 1) / k + if y mod k =? 0 then 1 else 0)%Z) as D.
  { intros k Hk. destruct (Z.eqb_spec (y mod k) 0) as [E|E].
    - apply Z.mod_divide in E; [|lia]. destruct E as [q ->]. rewrite Z.div_mul by lia. replace (q * k - 1)%Z with ((k - 1) + (q - 1) * k)%Z by lia. rewrite Z.div_add by lia. rewrite (Z.div_small (k - 1) k) by lia. lia.
    - assert (y / k = (y - 1) / k)%Z; [|lia]. apply (Z.div_unique _ _ _ (y mod k - 1)%Z); [left; pose proof (Z.mod_pos_bound y k Hk); lia|]. pose proof (Z.div_mod y k). lia. }
  assert (forall a b q, (0 < a -> b = a * q -> 0 < q -> y mod b = 0 -> y mod a = 0)%Z) as M.
  { intros a b q Ha -> Hq E. apply Z.mod_divide in E; [|lia]. apply Z.mod_divide; [lia|]. destruct E as [r E]. exists (r * q)%Z. rewrite E. ring. }
  rewrite (D 4%Z), (D 100%Z), (D 400%Z) by lia. pose proof (M 4%Z 100%Z 25%Z). pose proof (M 100%Z 400%Z 4%Z).
  destruct (Z.eqb_spec (y mod 4) 0), (Z.eqb_spec (y mod 100) 0), (Z.eqb_spec (y mod 400) 0); cbn [andb orb negb]; lia.
Qed.
Lemma next_year y : day_number (y + 1) 1 1 = (day_number y 12 31 + 1)%Z.
Proof.
  unfold day_number. rewrite year_step. unfold month_days. cbn [fold_left Z.ltb Z.compare Pos.compare Pos.compare_cont].
  unfold days_in. cbn [Z.eqb Pos.eqb orb]. destruct (leap y); lia.
Qed.
Lemma month_bounds m y : (1 <= m <= 12)%Z -> (0 <= month_days m y <= 335)%Z /\ (month_days m y + days_in m y <= 366)%Z /\ (m = 12 -> month_days m y = 334 + if leap y then 1 else 0)%Z /\
  (m <= 11 -> month_days m y <= 305)%Z /\ (m = 1 -> month_days m y = 0)%Z /\ (2 <= m -> 31 <= month_days m y)%Z /\ (m <= 11 -> month_days m y + days_in m y <= 335)%Z.
Proof.
  intros H. assert (m = 1 \/ m = 2 \/ m = 3 \/ m = 4 \/ m = 5 \/ m = 6 \/ m = 7 \/ m = 8 \/ m = 9 \/ m = 10 \/ m = 11 \/ m = 12)%Z as C by lia.
  unfold month_days. repeat (destruct C as [->|C]; [unfold days_in; cbn [fold_left Z.ltb Z.compare Pos.compare Pos.compare_cont Z.eqb Pos.eqb orb]; destruct (leap y); lia|]).
  subst m. unfold days_in; cbn [fold_left Z.ltb Z.compare Pos.compare Pos.compare_cont Z.eqb Pos.eqb orb]; destruct (leap y); lia.
Qed.
Lemma year_zero : year_days 0 = (-366)%Z /\ year_days 1 = 0%Z /\ year_days 2 = 365%Z /\ leap 0 = true.
Proof. repeat split; reflexivity. Qed.
Lemma year_mono y : (2 <= y)%Z -> (365 <= year_days y)%Z.
Proof.
  intros H. unfold year_days. assert ((y - 1) / 100 <= (y - 1) / 4)%Z by (apply Z.div_le_compat_l; lia). pose proof (Z.div_pos (y - 1) 400). lia.
Qed.
(* the zero time, in each zone *)
Definition midnight1 (t : civil) : Prop := (c_ns t = 0 /\
  (c_year t = 1 /\ c_month t = 1 /\ c_day t = 1 /\ (c_hour t * 60 + c_min t) * 60 + c_sec t = c_off t \/
   c_year t = 0 /\ c_month t = 12 /\ c_day t = 31 /\ (c_hour t * 60 + c_min t) * 60 + c_sec t = 86400 + c_off t \/
   c_year t = 1 /\ c_month t = 1 /\ c_day t = 2 /\ (c_hour t * 60 + c_min t) * 60 + c_sec t = c_off t - 86400))%Z.
Lemma zero_spec t : valid_time t -> is_zero t = true <-> midnight1 t.
Proof.
  intros [Hy [Hm [Hd [Hh [Hi [Hs [Hn [Ho _]]]]]]]]. unfold is_zero, midnight1, seconds, day_number. rewrite andb_true_iff, !Z.eqb_eq.
  destruct year_zero as [Y0 [Y1 [Y2 L0]]]. destruct (month_bounds (c_month t) (c_year t) Hm) as [B1 [B2 [B3 [B4 [B5 [B6 B7]]]]]]. split.
  - intros [E N]. split; [exact N|]. assert (c_year t = 0 \/ c_year t = 1 \/ 2 <= c_year t)%Z as [Y|[Y|Y]] by lia.
    + rewrite Y, Y0 in *. rewrite L0 in B3. assert (c_month t = 12)%Z as M by lia. specialize (B3 M). right. left. lia.
    + rewrite Y, Y1 in *. assert (c_month t = 1)%Z as M by lia. specialize (B5 M). assert (c_day t = 1 \/ c_day t = 2)%Z as [D|D] by lia; [left|right; right]; lia.
    + pose proof (year_mono _ Y). exfalso. lia.
  - intros [N [[Y [M [D E]]]|[[Y [M [D E]]]|[Y [M [D E]]]]]]; rewrite Y, M, D in *; (split; [|exact N]).
    + rewrite Y1. change (month_days 1 1) with 0%Z. lia.
    + rewrite Y0. change (month_days 12 0) with 335%Z. lia.
    + rewrite Y1. change (month_days 1 1) with 0%Z. lia.
Qed.

Lemma survives l only t : unmarshal_time l (marshal_time l t) = Some (only t) -> read_xml l (marshal_xml l t) = Some (if is_zero t then zero_time else only t).
Proof. intros H. unfold marshal_xml, read_xml. destruct (is_zero t); [reflexivity|exact H]. Qed.
Lemma survives_attr l only t name more : unmarshal_time l (marshal_time l t) = Some (only t) -> name <> "" -> (forall v, ~ In (name, v) more) ->
  read_attr l name (more ++ written_attr (marshal_xml_attr l name t)) = Some (if is_zero t then zero_time else only t).
Proof.
  intros H Hn Hm. unfold read_attr, marshal_xml_attr, written_attr.
  assert (forall r, find (fun a : string * string => String.eqb (fst a) name) (more ++ r)%list = find (fun a => String.eqb (fst a) name) r) as F.
  { intros r. induction more as [|[k v] more IH]; [reflexivity|]. cbn [app find fst]. destruct (String.eqb_spec k name) as [->|N]; [exfalso; apply (Hm v); left; reflexivity|]. apply IH. intros v' I. apply (Hm v'). right. exact I. }
  rewrite F. destruct (is_zero t); cbn [fst String.eqb find option_map read_xml]; [reflexivity|]. destruct (String.eqb_spec name ""); [contradiction|]. cbn [find fst]. rewrite String.eqb_refl. cbn [option_map snd]. exact H.
Qed.
(* the instant of a dateTime *)
Lemma instant t : valid_time t -> exists u, read_xml layout_dateTime (marshal_xml layout_dateTime t) = Some u /\ seconds u = seconds t /\ c_ns u = c_ns t.
Proof.
  intros V. eexists. split; [exact (survives layout_dateTime (fun t => t) t (dateTime_round_trip t V))|]. destruct (is_zero t) eqn:E; [|split; reflexivity].
  unfold is_zero in E. apply andb_prop in E as [E1 E2]. apply Z.eqb_eq in E1, E2. rewrite E1, E2. split; reflexivity.
Qed.

(* ---------- what the layouts can say ---------- *)
Definition within (k : list chunk) (u t : civil) : Prop :=
  (~ In KYear k -> c_year t = c_year u) /\ (~ In KMonth k -> c_month t = c_month u) /\ (~ In KDay k -> c_day t = c_day u).
Definition bounded (t : civil) : Prop := (0 <= c_hour t <= 23 /\ 0 <= c_min t <= 59 /\ 0 <= c_sec t <= 59 /\ -90000 <= c_off t <= 90000 /\ 1 <= c_month t <= 12)%Z.
Lemma ranged_inv lo hi o f t r : ranged lo hi o f = Some (t, r) -> exists v, (lo <= v <= hi)%Z /\ t = f v.
Proof.
  unfold ranged. destruct o as [[v x]|]; [|discriminate]. destruct ((lo <=? v) && (v <=? hi))%Z eqn:E; [|discriminate]. intros [= <- _]. apply andb_prop in E as [E1 E2]. exists v. split; [lia|reflexivity].
Qed.
Lemma getnum_nonneg b s v r : getnum b s = Some (v, r) -> (0 <= v)%Z.
Proof.
  unfold getnum. destruct s as [|a s]; [discriminate|]. destruct (digit_val a) as [x|]; [|discriminate]. destruct s as [|c s]; [destruct b; [discriminate|intros [= <- _]; lia]|].
  destruct (digit_val c) as [y|]; [intros [= <- _]; lia|destruct b; [discriminate|intros [= <- _]; lia]].
Qed.
Lemma parse1_within u k s t r : parse1 u k s = Some (t, r) -> bounded u -> bounded t /\ within [k] u t.
Proof.
  intros H B. destruct u as [y mo d h mi se ns off]. unfold bounded in B. cbn [c_hour c_min c_sec c_off c_month] in B.
  destruct k; cbn [parse1] in H.
  - destruct s as [|x s]; [discriminate|]. destruct (Ascii.eqb x c); [|discriminate]. injection H as <- _. split; [exact B|repeat split].
  - destruct (Nat.eqb _ 4); [|discriminate]. destruct (digits _); [|discriminate]. injection H as <- _. split; [exact B|]. repeat split; intros N; exfalso; apply N; left; reflexivity.
  - apply ranged_inv in H as [v [Hv ->]]. split; [unfold bounded; cbn; lia|]. repeat split. intros N; exfalso; apply N; left; reflexivity.
  - apply ranged_inv in H as [v [Hv ->]]. split; [unfold bounded; cbn; lia|]. repeat split. intros N; exfalso; apply N; left; reflexivity.
  - apply ranged_inv in H as [v [Hv ->]]. split; [unfold bounded; cbn; lia|repeat split].
  - apply ranged_inv in H as [v [Hv ->]]. split; [unfold bounded; cbn; lia|repeat split].
  - apply ranged_inv in H as [v [Hv ->]]. split; [unfold bounded; cbn; lia|repeat split].
  - assert (exists ns', t = mkCivil y mo d h mi se ns' off) as [ns' ->]; [|split; [exact B|repeat split]].
    destruct s as [|x [|b s]]; [injection H as <- _; eexists; reflexivity..|]. destruct (_ && _)%bool; [|injection H as <- _; eexists; reflexivity]. destruct (digit_run _) as [ds rest]. injection H as <- _. eexists. reflexivity.
  - assert (exists off', (-90000 <= off' <= 90000)%Z /\ t = mkCivil y mo d h mi se ns off') as [off' [Ho ->]]; [|split; [unfold bounded; cbn; lia|repeat split]].
    destruct s as [|sg s]; [discriminate|].
    assert (match getnum true s with
            | Some (hh, String ":" r') => match getnum true r' with
                | Some (mm, r'') => if ((hh <=? 24) && (mm <=? 60))%Z then let o := ((hh * 60 + mm) * 60)%Z in
                    if Ascii.eqb sg "+" then Some (mkCivil y mo d h mi se ns o, r'') else if Ascii.eqb sg "-" then Some (mkCivil y mo d h mi se ns (- o), r'') else None else None
                | None => None end
            | _ => None end = Some (t, r) \/ t = mkCivil y mo d h mi se ns 0) as [H'|H'].
    { destruct (ascii_dec sg "Z") as [->|N]; [right; injection H as <- _; reflexivity|left]. rewrite <- H. symmetry. exact (zone_case sg s N (mkCivil y mo d h mi se ns off)). }
    + clear H. destruct (getnum true s) as [[hh s1]|] eqn:G1; [|discriminate]. destruct s1 as [|c s1]; [discriminate|]. destruct (ascii_dec c ":") as [->|Nc].
      2:{ exfalso. revert H'. destruct c as [[] [] [] [] [] [] [] []]; try discriminate. exfalso. apply Nc. reflexivity. }
      destruct (getnum true s1) as [[mm s2]|] eqn:G2; [|discriminate]. apply getnum_nonneg in G1, G2. destruct ((hh <=? 24) && (mm <=? 60))%Z eqn:E; [|discriminate]. apply andb_prop in E as [E1 E2].
      cbv zeta in H'. destruct (Ascii.eqb sg "+"); [injection H' as <- _; eexists; split; [|reflexivity]; lia|]. destruct (Ascii.eqb sg "-"); [injection H' as <- _; eexists; split; [|reflexivity]; lia|discriminate].
    + exists 0%Z. split; [lia|exact H'].
Qed.
Lemma parse_within : forall l u s t, parse_chunks u l s = Some t -> bounded u -> bounded t /\ within l u t.
Proof.
  induction l as [|k l IH]; intros u s t H B; cbn [parse_chunks] in H.
  - destruct (String.eqb s ""); [|discriminate]. injection H as <-. split; [exact B|repeat split].
  - destruct (parse1 u k s) as [[v r]|] eqn:E; [|discriminate]. apply parse1_within in E as [Bv [W1 [W2 W3]]]; [|exact B]. apply IH in H as [Bt [X1 [X2 X3]]]; [|exact Bv]. split; [exact Bt|].
    repeat split; intros N; [rewrite X1, W1|rewrite X2, W2|rewrite X3, W3]; try reflexivity; intros I; apply N; try (right; exact I); destruct I as [->|[]]; left; reflexivity.
Qed.
Lemma read_within l s t : unmarshal_time l s = Some t -> bounded t /\ within (l ++ [KZone]) zero_civil t /\ (1 <= c_day t <= days_in (c_month t) (c_year t))%Z.
Proof.
  assert (bounded zero_civil) as B0 by (unfold bounded; cbn; lia).
  assert (forall l' s', time_parse l' s' = Some t -> bounded t /\ within l' zero_civil t /\ (1 <= c_day t <= days_in (c_month t) (c_year t))%Z) as P.
  { intros l' s' H. unfold time_parse in H. destruct (parse_chunks zero_civil l' s') as [x|] eqn:E; [|discriminate]. destruct ((1 <=? c_day x) && (c_day x <=? days_in (c_month x) (c_year x)))%Z eqn:D; [|discriminate]. injection H as ->.
    apply parse_within in E as [Bt Wt]; [|exact B0]. apply andb_prop in D as [D1 D2]. split; [exact Bt|split; [exact Wt|lia]]. }
  unfold unmarshal_time. destruct (time_parse l (trim_space s)) as [x|] eqn:E.
  - intros [= ->]. destruct (P _ _ E) as [Bt [[W1 [W2 W3]] D]]. split; [exact Bt|]. split; [|exact D]. repeat split; intros N; [apply W1|apply W2|apply W3]; intros I; apply N; apply in_or_app; left; exact I.
  - intros H. exact (P _ _ H).
Qed.
(* without a year the time is never zero, unless it is the last day of December *)
Lemma never_zero l s t : ~ In KYear l -> (~ In KMonth l \/ ~ In KDay l) -> unmarshal_time l s = Some t -> is_zero t = false.
Proof.
  intros Ny Nmd H. apply read_within in H as [[Bh [Bm [Bs [Bo Bmo]]]] [[W1 [W2 W3]] Bd]].
  assert (forall k, k <> KZone -> ~ In k l -> ~ In k (l ++ [KZone])) as A by (intros k Nk N I; apply in_app_or in I as [I|[I|[]]]; [exact (N I)|congruence]).
  assert (c_year t = 0)%Z as Y by (apply W1, A; [discriminate|exact Ny]).
  destruct (is_zero t) eqn:E; [|reflexivity]. exfalso. unfold is_zero in E. apply andb_prop in E as [E _]. apply Z.eqb_eq in E. unfold seconds, day_number in E. rewrite Y in *.
  destruct year_zero as [Y0 [_ [_ L0]]]. rewrite Y0 in E. destruct (month_bounds (c_month t) 0 Bmo) as [B1 [B2 [B3 [B4 [B5 [B6 B7]]]]]].
  destruct Nmd as [N|N].
  - assert (c_month t = 1)%Z as M by (apply W2, A; [discriminate|exact N]). specialize (B5 M). pose proof (days_31 (c_month t) 0). lia.
  - assert (c_day t = 1)%Z as D by (apply W3, A; [discriminate|exact N]). lia.
Qed.
(* the day that is read and not written again *)
Lemma dropped : Forall (fun p => exists t, unmarshal_time (fst p) (snd p) = Some t /\ marshal_xml (fst p) t = None /\ written_attr (marshal_xml_attr (fst p) "day" t) = [])
  [(layout_date, "0001-01-01"); (layout_dateTime, "0001-01-01T00:00:00"); (layout_gYear, "0001"); (layout_gYearMonth, "0001-01"); (layout_gMonthDay, "--12-31-24:00")].
Proof. repeat (constructor; [eexists; split; [vm_compute; reflexivity|split; vm_compute; reflexivity]|]). constructor. Qed.
(* the zone of the zero time is lost *)
Lemma zone_lost : exists t, valid_time t /\ c_off t <> 0%Z /\ exists u, read_xml layout_dateTime (marshal_xml layout_dateTime t) = Some u /\ c_off u = 0%Z /\ u <> t.
Proof.
  exists (mkCivil 1 1 1 1 0 0 0 3600). split; [unfold valid_time; cbn [c_year c_month c_day c_hour c_min c_sec c_ns c_off]; change (days_in 1 1) with 31%Z; repeat split; try lia; exists 60%Z; reflexivity|].
  split; [cbn; lia|]. eexists. split; [vm_compute; reflexivity|]. split; [reflexivity|discriminate].
Qed.
(* the layouts, with what is left of a time *)
Definition kinds : list (list chunk * (civil -> civil)) :=
  [(layout_dateTime, fun t => t); (layout_date, only_date); (layout_time, only_time); (layout_gDay, only_gDay); (layout_gMonth, only_gMonth);
   (layout_gMonthDay, only_gMonthDay); (layout_gYear, only_gYear); (layout_gYearMonth, only_gYearMonth)].
Lemma kinds_round_trip l only t : In (l, only) kinds -> valid_time t -> unmarshal_time l (marshal_time l t) = Some (only t).
Proof.
  intros I V. cbn in I. destruct I as [[= <- <-]|[[= <- <-]|[[= <- <-]|[[= <- <-]|[[= <- <-]|[[= <- <-]|[[= <- <-]|[[= <- <-]|[]]]]]]]]].
  - exact (dateTime_round_trip t V). - exact (date_round_trip t V). - exact (gTime_round_trip t V). - exact (gDay_round_trip t V).
  - exact (gMonth_round_trip t V). - exact (gMonthDay_round_trip t V). - exact (gYear_round_trip t V). - exact (gYearMonth_round_trip t V).
Qed.
Lemma element_read l only t : In (l, only) kinds -> valid_time t -> read_xml l (marshal_xml l t) = Some (if is_zero t then zero_time else only t).
Proof. intros I V. exact (survives l only t (kinds_round_trip l only t I V)). Qed.
Lemma attribute_read l only t name more : In (l, only) kinds -> valid_time t -> name <> "" -> (forall v, ~ In (name, v) more) ->
  read_attr l name (more ++ written_attr (marshal_xml_attr l name t)) = Some (if is_zero t then zero_time else only t).
Proof. intros I V. exact (survives_attr l only t name more (kinds_round_trip l only t I V)). Qed.
Lemma always_written l s t : In l [layout_time; layout_gDay; layout_gMonth] -> unmarshal_time l s = Some t -> marshal_xml l t <> None.
Proof.
  intros I H. unfold marshal_xml. assert (is_zero t = false) as ->; [|discriminate]. apply (never_zero l s t); [| |exact H].
  - cbn in I. destruct I as [<-|[<-|[<-|[]]]]; vm_compute; intuition discriminate.
  - cbn in I. destruct I as [<-|[<-|[<-|[]]]]; [left|left|right]; vm_compute; intuition discriminate.
Qed.
Lemma left_out l name t : valid_time t -> name <> "" -> (marshal_xml l t = None <-> midnight1 t) /\ (written_attr (marshal_xml_attr l name t) = [] <-> midnight1 t).
Proof.
  intros V Hn. rewrite <- (zero_spec t V). unfold marshal_xml, marshal_xml_attr, written_attr. destruct (is_zero t); cbn [fst]; [split; split; reflexivity|].
  destruct (String.eqb_spec name ""); [contradiction|]. split; split; discriminate.
Qed.
Lemma zero_case : let t := mkCivil 2024 2 29 23 5 9 0 (-19800) in valid_time t /\ ~ midnight1 t /\ marshal_xml layout_date t = Some "2024-02-29-05:30" /\
  seconds t = 63844864509%Z /\ read_attr layout_date "d" [("a", "1"); ("d", "2024-02-29-05:30")] = Some (only_date t).
Proof.
  cbn zeta. split; [unfold valid_time; cbn [c_year c_month c_day c_hour c_min c_sec c_ns c_off]; change (days_in 2 2024) with 29%Z; repeat split; try lia; exists (-330)%Z; reflexivity|].
  split; [unfold midnight1; cbn [c_year c_month c_day c_hour c_min c_sec c_ns c_off]; lia|]. repeat split; vm_compute; reflexivity.
Qed.
Lemma zero_zone : let t := mkCivil 1 1 1 1 0 0 0 3600 in valid_time t /\ midnight1 t /\ marshal_xml layout_dateTime t = None.
Proof.
  cbn zeta. split; [unfold valid_time; cbn [c_year c_month c_day c_hour c_min c_sec c_ns c_off]; change (days_in 1 1) with 31%Z; repeat split; try lia; exists 60%Z; reflexivity|].
  split; [unfold midnight1; cbn [c_year c_month c_day c_hour c_min c_sec c_ns c_off]; lia|vm_compute; reflexivity].
Qed.
