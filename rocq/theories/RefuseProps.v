(** * C141: which exceptions malformed inputs raise *)

From Coq Require Import String Ascii.
From Coq Require Import List Bool Arith ZArith QArith Reals Lra Lia Sorted.
From Verif Require Import Py Num Dict TableModel TableProofs TableProofs2 DataModel InterpModel BaseModel CsvModel CurveModel
  MultiModel InfluenceModel WeatherModel HandlerModel WPointsModel DefaultsModel SmoothModel WeigherModel.
Import List ListNotations.
Open Scope string_scope.
Open Scope list_scope.
Open Scope R_scope.

(** ** Tables *)

(** C141: item access by several winds of the table: TypeError, or IndexError if the two lists
    of indices cannot be broadcast; only one wind speed and one wind angle give a number. *)
Theorem table_items_refused : forall (t : table R) ws wa,
  StronglySorted Rlt (t_ws t) -> StronglySorted Rlt (t_wa t) ->
  ws <> [] -> StronglySorted Rlt ws -> (forall x, In x ws -> In x (t_ws t) /\ 0 <= x) ->
  wa <> [] -> StronglySorted Rlt wa -> (forall x, In x wa -> In x (t_wa t) /\ 0 <= x < 360) ->
  (length ws = 1%nat /\ length wa = 1%nat -> exists b, getitem t ws wa = Ok b) /\
  (length ws <> 1%nat \/ length wa <> 1%nat ->
     getitem t ws wa = Raise (if (length ws =? length wa) || (length ws =? 1) || (length wa =? 1) then TypeError else IndexError)%nat).
Proof.
  intros t ws wa S1 S2 N1 Q1 I1 N2 Q2 I2.
  assert (normalize_ws ws = Ok ws) as E1.
  { unfold normalize_ws. destruct (existsb _ ws) eqn:E; [|reflexivity]. apply existsb_exists in E. destruct E as [x [Hx Lx]]. rnum.
    destruct (Rltb_spec x 0); [|discriminate Lx]. apply I1 in Hx. lra. }
  assert (normalize_wa wa = Ok wa) as E2.
  { unfold normalize_wa. f_equal. clear - I2. induction wa as [|a wa IH]; [reflexivity|]. cbn [map]. f_equal; [|apply IH; intros x Hx; apply I2; right; exact Hx].
    apply nmod_small. apply I2. left. reflexivity. }
  destruct (get_indices_sorted (t_ws t) ws ws normalize_ws S1 E1 N1 Q1 (fun x H => proj1 (I1 x H))) as [i1 [G1 [_ [L1 _]]]].
  destruct (get_indices_sorted (t_wa t) wa wa normalize_wa S2 E2 N2 Q2 (fun x H => proj1 (I2 x H))) as [i2 [G2 [_ [L2 _]]]].
  unfold getitem. rewrite G1. cbn [rbind]. rewrite G2. cbn [rbind]. rewrite <- L1, <- L2.
  assert (i1 <> []) as Z1 by (intros ->; destruct ws; [congruence|discriminate L1]).
  assert (i2 <> []) as Z2 by (intros ->; destruct wa; [congruence|discriminate L2]).
  clear - Z1 Z2. destruct i1 as [|a [|b i1]], i2 as [|c [|d i2]]; try congruence; cbn [length Nat.eqb orb]; split; intros H; try (destruct H; discriminate).
  - eauto.
  - exfalso. cbn in H. lia.
  - reflexivity.
  - reflexivity.
  - rewrite !orb_false_r, (Nat.eqb_sym (length i2)). destruct (length i1 =? length i2)%nat; reflexivity.
Qed.
Print Assumptions table_items_refused.
Example table_items_meets :
  let t := mkTable [6; 8; 10] [60; 90] [[1; 2; 3]; [4; 5; 6]] false in
  getitem t [6; 8; 10] [60; 90] = Raise IndexError /\ getitem t [6; 8] [60; 90] = Raise TypeError /\ getitem t [6; 8] [60] = Raise TypeError.
Proof.
  assert (forall l : list R, l = [6; 8; 10] \/ l = [6; 8] \/ l = [60; 90] \/ l = [60] -> l <> [] /\ StronglySorted Rlt l) as SL.
  { intros l [-> | [-> | [-> | ->]]]; (split; [discriminate|]); repeat constructor; lra. }
  intros t. assert (forall ws wa, ws = [6; 8; 10] \/ ws = [6; 8] -> wa = [60; 90] \/ wa = [60] -> (length ws <> 1%nat \/ length wa <> 1%nat) ->
     getitem t ws wa = Raise (if (length ws =? length wa) || (length ws =? 1) || (length wa =? 1) then TypeError else IndexError)%nat) as T.
  { intros ws wa Hs Ha. apply table_items_refused; try (apply SL; cbn; tauto); intros x Hx.
    - destruct Hs as [-> | ->]; repeat (destruct Hx as [<-|Hx]; [split; [cbn; tauto|lra]|]); destruct Hx.
    - destruct Ha as [-> | ->]; repeat (destruct Hx as [<-|Hx]; [split; [cbn; tauto|lra]|]); destruct Hx. }
  split; [|split]; (rewrite T; [reflexivity|tauto|tauto|cbn; lia]).
Qed.

(** ** Data *)

(** C141: deleting a column that is not there is a KeyError and changes nothing. *)
Theorem delete_missing : forall d k, ~ In k (data_keys d) -> delete_col d k = (d, Raise KeyError).
Proof.
  intros d k N. unfold delete_col. unfold dmem. destruct (dget k (cols d)) eqn:E; [|reflexivity].
  exfalso. apply N. unfold data_keys. apply dget_In_key. eauto.
Qed.
Print Assumptions delete_missing.
Example delete_missing_meets : delete_col (mkData [("a", [])] [("a", None)] 0) "b" = (mkData [("a", [])] [("a", None)] 0, Raise KeyError).
Proof. apply delete_missing. cbn. intuition discriminate. Qed.

(** C141: a csv row longer than the header is an IndexError. *)
Theorem csv_row_too_long : forall parse_float strptime literal_eval keys pre row rest,
  (forall r, In r pre -> (length r <= length keys)%nat) -> (length keys < length row)%nat ->
  csv_handle parse_float strptime literal_eval (keys :: pre ++ row :: rest) = Raise IndexError.
Proof.
  intros pf sp le keys pre row rest FP L. unfold csv_handle.
  assert (forall k (d : dict (list string)), In k (dkeys (fold_left (fun d k => dset k [] d) keys d)) <-> In k keys \/ In k (dkeys d)) as KD.
  { clear. induction keys as [|a keys IH]; intros k d; cbn [fold_left]; [cbn; tauto|]. rewrite IH, dset_In_keys. cbn. intuition congruence. }
  set (d0 := fold_left _ _ _). assert (forall k, In k keys -> In k (dkeys d0)) as K0 by (intros k I; apply KD; auto). clearbody d0. clear KD.
  assert (forall r i d, (forall k, In k keys -> In k (dkeys d)) ->
    if (i + length r <=? length keys)%nat then exists d', csv_row keys i r d = Ok d' /\ forall k, In k keys -> In k (dkeys d')
    else (i <= length keys)%nat -> csv_row keys i r d = Raise IndexError) as ROW.
  { clear. induction r as [|e r IH]; intros i d K; cbn [csv_row length].
    - destruct (Nat.leb_spec (i + 0) (length keys)); [eauto|lia].
    - destruct (nth_error keys i) as [k|] eqn:E.
      + assert (exists l, dget k d = Some l) as [l G] by (apply dget_In_key, K; eapply nth_error_In; eauto). rewrite G.
        assert (i < length keys)%nat as Li by (apply nth_error_Some; congruence).
        specialize (IH (S i) (dset k (l ++ [e]) d)). replace (i + S (length r))%nat with (S i + length r)%nat by lia.
        assert (forall k0, In k0 keys -> In k0 (dkeys (dset k (l ++ [e]) d))) as K' by (intros k0 I; apply dset_In_keys; auto).
        specialize (IH K'). destruct (_ <=? _)%nat; [exact IH|]. intros _. apply IH. lia.
      + apply nth_error_None in E. destruct (Nat.leb_spec (i + S (length r)) (length keys)); [lia|]. auto. }
  assert (csv_body keys (pre ++ row :: rest) d0 = Raise IndexError) as ->; [|reflexivity].
  revert d0 K0. induction pre as [|r pre IH]; intros d0 K0; cbn [app csv_body].
  - specialize (ROW row 0%nat d0 K0). destruct (Nat.leb_spec (0 + length row) (length keys)); [cbn in *; lia|]. rewrite ROW by lia. reflexivity.
  - specialize (ROW r 0%nat d0 K0). destruct (Nat.leb_spec (0 + length r) (length keys)) as [LE|GT].
    + destruct ROW as [d' [-> K']]. cbn [rbind]. apply IH; auto. intros r0 H. apply FP. right. exact H.
    + specialize (FP r (or_introl eq_refl)). cbn in GT. lia.
Qed.
Print Assumptions csv_row_too_long.
Example csv_row_too_long_meets : csv_handle (fun _ => None) (fun _ => None) (fun _ => LValue) [["a"; "b"]; ["1"; "2"]; ["1"; "2"; "3"]] = Raise IndexError.
Proof. apply (csv_row_too_long _ _ _ ["a"; "b"] [["1"; "2"]]); [intros r [<-|[]]; cbn; lia|cbn; lia]. Qed.

(** C141: a csv file without any line is a StopIteration. *)
Theorem csv_empty_refused : forall parse_float strptime literal_eval,
  csv_handle parse_float strptime literal_eval [] = Raise StopIteration.
Proof. reflexivity. Qed.
Print Assumptions csv_empty_refused.

(** C141: arrays of one dimension and of another width than the keys. *)
Theorem array_refused : forall parse_float keys width rows,
  array_handle parse_float Arr1 keys = Raise IndexError /\
  (length keys <> width -> array_handle parse_float (Arr2 width rows) keys = Raise ValueError).
Proof.
  intros pf keys width rows. split; [reflexivity|]. intros N. cbn. apply Nat.eqb_neq in N. rewrite N. reflexivity.
Qed.
Print Assumptions array_refused.
Example array_refused_meets : array_handle (fun _ => None) (Arr2 2 []) ["a"] = Raise ValueError.
Proof. apply array_refused. discriminate. Qed.

(** C141: a time of an NMEA sentence with a letter among its first six characters is a ValueError,
    and so is the empty text; a time of six digits without a fraction is an IndexError, although
    NMEA allows it. *)
Definition decimal (c : Ascii.ascii) : Prop := (48 <= Ascii.nat_of_ascii c <= 57)%nat.
Definition letter (c : Ascii.ascii) : Prop := let n := Ascii.nat_of_ascii c in (65 <= n <= 90 \/ 97 <= n <= 122)%nat.
Theorem nmea_time_refused : forall a b c d e f rest,
  ((forall x, In x [a; b; c; d; e; f] -> decimal x \/ letter x) -> (exists x, In x [a; b; c; d; e; f] /\ letter x) ->
     time_from_nmea_format (String a (String b (String c (String d (String e (String f rest)))))) = Raise ValueError) /\
  (decimal a -> decimal b -> decimal c -> decimal d -> decimal e -> decimal f ->
     time_from_nmea_format (String a (String b (String c (String d (String e (String f "")))))) = Raise IndexError) /\
  time_from_nmea_format "" = Raise ValueError.
Proof.
  assert (forall c, (exists v, digit_value c = Some v) /\ decimal c \/ digit_value c = None /\ ~ decimal c) as DV.
  { intros c. unfold digit_value, decimal. destruct (Nat.leb_spec 48 (Ascii.nat_of_ascii c)), (Nat.leb_spec (Ascii.nat_of_ascii c) 57); cbn [andb];
      (left; split; [eexists; reflexivity|lia]) || (right; split; [reflexivity|lia]). }
  assert (forall x y, (exists z, int_of_string (String x (String y "")) = Ok z) /\ decimal x /\ decimal y \/
    int_of_string (String x (String y "")) = Raise ValueError /\ ~ (decimal x /\ decimal y)) as TWO.
  { intros x y. cbn [int_of_string digits_value].
    destruct (DV x) as [[[v ->] X]|[-> X]]; [|right; split; [reflexivity|tauto]].
    destruct (DV y) as [[[w ->] Y]|[-> Y]]; [|right; split; [reflexivity|tauto]]. left. split; [eexists; reflexivity|auto]. }
  assert (forall a b c d e f r, String.substring 0 2 (String a (String b (String c (String d (String e (String f r)))))) = String a (String b "") /\
    String.substring 2 2 (String a (String b (String c (String d (String e (String f r)))))) = String c (String d "") /\
    String.substring 4 2 (String a (String b (String c (String d (String e (String f r)))))) = String e (String f "")) as SUB.
  { intros. destruct r; repeat split; reflexivity. }
  assert (forall c, decimal c -> Ascii.eqb c "."%char = false) as ND.
  { intros c Dc. destruct (Ascii.eqb_spec c "."%char) as [->|]; [|reflexivity]. unfold decimal in Dc. cbn in Dc. lia. }
  intros a b c d e f rest. split; [|split; [|reflexivity]].
  - intros _ [x0 [Hx Lx]].
    assert (~ (decimal a /\ decimal b /\ decimal c /\ decimal d /\ decimal e /\ decimal f)) as N.
    { intros H. assert (decimal x0) as Q by (cbn in Hx; intuition congruence). unfold decimal in Q. unfold letter in Lx. cbv zeta in Lx. lia. }
    unfold time_from_nmea_format. destruct (SUB a b c d e f rest) as [-> [-> ->]].
    destruct (TWO a b) as [[[v ->] X]|[-> X]]; [cbn [rbind]|reflexivity].
    destruct (TWO c d) as [[[w ->] Y]|[-> Y]]; [cbn [rbind]|reflexivity].
    destruct (TWO e f) as [[[u ->] Z]|[-> Z]]; [tauto|reflexivity].
  - intros Da Db Dc Dd De Df. unfold time_from_nmea_format. destruct (SUB a b c d e f ""%string) as [-> [-> ->]].
    destruct (TWO a b) as [[[v ->] X]|[_ X]]; [cbn [rbind]|tauto].
    destruct (TWO c d) as [[[w ->] Y]|[_ Y]]; [cbn [rbind]|tauto].
    destruct (TWO e f) as [[[u ->] Z]|[_ Z]]; [cbn [rbind]|tauto].
    cbn [split_dot]. rewrite !ND by auto. reflexivity.
Qed.
Print Assumptions nmea_time_refused.
Example nmea_time_refused_meets : time_from_nmea_format "123519" = Raise IndexError /\ time_from_nmea_format "12x519.5" = Raise ValueError.
Proof. split; reflexivity. Qed.

(** C141: points with one weight for all: the weight is repeated for arrays and dictionaries, an
    empty dictionary is an IndexError and a [Data] object a TypeError. *)
Theorem one_weight_refused : forall (A V W : Type) (w : W) d,
  wp_new (@WPointsModel.PDict A V []) (WScalar w) = Raise IndexError /\ wp_new (@WPointsModel.PData A V d) (WScalar w) = Raise TypeError.
Proof. intros. split; reflexivity. Qed.
Print Assumptions one_weight_refused.

(** C141: files of a curve: short rows are IndexErrors, a wrong flag a ValueError, an unknown
    function a RuntimeError, and too few parameters a ValueError. *)
Theorem curve_file_refused : forall lit functions (first flag params : list string) rest,
  ((length first < 2)%nat -> curve_from_csv lit functions (first :: rest) = Raise IndexError) /\
  (forall x name more, first = x :: name :: more ->
     ((length flag < 2)%nat -> curve_from_csv lit functions (first :: flag :: rest) = Raise IndexError) /\
     (forall y b more', flag = y :: b :: more' ->
        (b <> "True" -> b <> "False" -> curve_from_csv lit functions (first :: flag :: rest) = Raise ValueError) /\
        (b = "True" \/ b = "False" -> forall ps, mapM lit (tl params) = Ok ps ->
           (functions name = None -> curve_from_csv lit functions (first :: flag :: params :: rest) = Raise RuntimeError) /\
           (forall f, functions name = Some f -> f_call f 1 1 ps = Raise IndexError \/ f_call f 1 1 ps = Raise TypeError ->
              curve_from_csv lit functions (first :: flag :: params :: rest) = Raise ValueError)))).
Proof.
  intros lit functions first flag params rest. split.
  - intros L. destruct first as [|x [|y first]]; [reflexivity|reflexivity|cbn in L; lia].
  - intros x name more ->. split.
    + intros L. destruct flag as [|y [|b flag]]; [reflexivity|reflexivity|cbn in L; lia].
    + intros y b more' ->. split.
      * intros N1 N2. unfold curve_from_csv. cbn [next_row rbind]. unfold lit_bool.
        destruct (String.eqb_spec b "True"); [contradiction|]. destruct (String.eqb_spec b "False"); [contradiction|]. reflexivity.
      * intros HB ps EP. assert (exists r, lit_bool b = Ok r) as [r EB] by (destruct HB as [-> | ->]; eexists; reflexivity).
        unfold curve_from_csv. cbn [next_row rbind]. rewrite EB. cbn [rbind]. rewrite EP. cbn [rbind]. split.
        -- intros ->. reflexivity.
        -- intros f -> H. unfold curve_new, check_enough_params. destruct H as [-> | ->]; reflexivity.
Qed.
Print Assumptions curve_file_refused.
Example curve_file_refused_meets :
  curve_from_csv (fun _ => Ok 1) (fun _ => None) [["Function"; "f"]; ["Radians"; "False"]; ["Parameters"; "1"]] = Raise RuntimeError /\
  curve_from_csv (fun _ => Ok 1) (fun _ => None) [["Function"; "f"]; ["Radians"; "no"]] = Raise ValueError.
Proof.
  split.
  - destruct (curve_file_refused (fun _ => Ok 1) (fun _ => None) ["Function"; "f"] ["Radians"; "False"] ["Parameters"; "1"] []) as [_ H].
    destruct (H _ _ _ eq_refl) as [_ H']. destruct (H' _ _ _ eq_refl) as [_ H2]. exact (proj1 (H2 (or_intror eq_refl) [1] eq_refl) eq_refl).
  - destruct (curve_file_refused (fun _ => Ok 1) (fun _ => None) ["Function"; "f"] ["Radians"; "no"] [] []) as [_ H].
    destruct (H _ _ _ eq_refl) as [_ H']. destruct (H' _ _ _ eq_refl) as [H2 _]. apply H2; discriminate.
Qed.

(** C141: sets of sails: an unknown sail is a ValueError, the points of no sails are a ValueError. *)
Theorem sails_refused : forall (D : Type) (m : multi D) name points,
  (~ In name (m_sails m) -> multi_getitem m name = Raise ValueError) /\
  (m_diagrams m = [] -> multi_default_points points m = Raise ValueError).
Proof.
  intros D m name points. split.
  - intros N. unfold multi_getitem. assert (forall l n, ~ In name l -> index_of name l n = None) as IX.
    { clear. induction l as [|a l IH]; intros n H; [reflexivity|]. cbn. destruct (String.eqb_spec name a); [exfalso; apply H; left; auto|].
      destruct (String.eqb_spec a name); [exfalso; apply H; left; auto|]. apply IH. intros I. apply H. right. auto. }
    rewrite IX; auto.
  - intros E. unfold multi_default_points. rewrite E. reflexivity.
Qed.
Print Assumptions sails_refused.
Example sails_refused_meets : multi_getitem (mkMulti ["jib"; "main"] [1; 2]) "kite" = Raise ValueError.
Proof. apply (sails_refused R _ _ (fun _ => Ok [])). cbn. intuition discriminate. Qed.

(** C141: winds given partly as numbers and partly as arrays are a ValueError, and so are arrays of
    different lengths. *)
Theorem mixed_wind_refused : forall d tws twa bsp,
  dget "TWS" d = Some tws -> dget "TWA" d = Some twa -> dget "BSP" d = Some bsp ->
  ((exists x, tws = Single x) /\ (exists l, twa = NpArray l \/ twa = PyList l) -> get_true_wind_data d = Raise ValueError) /\
  (forall a b c, tws = NpArray a -> twa = NpArray b -> bsp = NpArray c -> length a <> length b \/ length b <> length c ->
     get_true_wind_data d = Raise ValueError).
Proof.
  intros d tws twa bsp E1 E2 E3. unfold get_true_wind_data, dmem, iget. rewrite E1, E2, E3. cbn [andb rbind]. rewrite E3. cbn [rbind].
  split.
  - intros [[x ->] [l [-> | ->]]]; reflexivity.
  - intros a b c -> -> -> H. cbn [array3 InfluenceModel.column].
    destruct (Nat.eqb_spec (length a) (length b)), (Nat.eqb_spec (length b) (length c)); try reflexivity. destruct H; contradiction.
Qed.
Print Assumptions mixed_wind_refused.
Example mixed_wind_refused_meets :
  get_true_wind_data [("TWS", NpArray [10; 11]); ("TWA", NpArray [45; 50]); ("BSP", NpArray [5])] = Raise ValueError.
Proof.
  eapply mixed_wind_refused; [reflexivity|reflexivity|reflexivity|reflexivity|reflexivity|reflexivity|right; discriminate].
Qed.

(** C141: a weather file must be a list of five parts: fewer than two are a ValueError; if the
    times can be read, any other number is a TypeError, and a time that cannot be read a ValueError. *)
Theorem weather_file_refused : forall (T : Type) (parts : list (jval T)) (data : jval T) times rest,
  ((length parts < 2)%nat -> from_file (JList parts) = Raise ValueError) /\
  ((forall s, In s times -> exists d, strptime_file s = Some d) -> length rest <> 3%nat ->
     from_file (JList (data :: JList (map JStr times) :: rest)) = Raise TypeError) /\
  ((exists s, In s times /\ strptime_file s = None) ->
     from_file (JList (data :: JList (map JStr times) :: rest)) = Raise ValueError).
Proof.
  intros T parts data times rest. split; [|split].
  - destruct parts as [|a [|b parts]]; intros H; [reflexivity|reflexivity|cbn in H; lia].
  - intros H N. unfold from_file. cbn [jlist rbind jlist_of].
    assert (exists ds, mapM read_time (map (@JStr T) times) = Ok ds) as [ds ->].
    { clear N. induction times as [|s times IH]; [eexists; reflexivity|]. cbn [map mapM]. unfold read_time at 1. cbn [jstr rbind].
      destruct (H s (or_introl eq_refl)) as [d ->]. cbn [rbind]. destruct IH as [ds ->]; [intros s' I; apply H; right; exact I|]. eexists; reflexivity. }
    cbn [rbind]. destruct rest as [|a [|b [|c [|d rest]]]]; try reflexivity. cbn in N. lia.
  - intros H. unfold from_file. cbn [jlist rbind jlist_of].
    assert (mapM read_time (map (@JStr T) times) = Raise ValueError) as ->; [|reflexivity].
    induction times as [|s times IH]; [destruct H as [s [[] _]]|]. cbn [map mapM]. unfold read_time at 1. cbn [jstr rbind].
    destruct (strptime_file s) eqn:E; [|reflexivity]. cbn [rbind]. rewrite IH; [reflexivity|].
    destruct H as [s' [[<- | I] N]]; [congruence|eauto].
Qed.
Print Assumptions weather_file_refused.
Example weather_file_refused_meets :
  from_file (JList [JNum 0; JList [JStr "24.12.2020:18:00:00"]; JNum 0]) = Raise TypeError /\
  from_file (JList [JNum 0; JList [JStr "24.12.2020:18:00:00"; JStr "24.13.2020:18:00:00"]; JNum 0]) = Raise ValueError.
Proof.
  split.
  - apply (weather_file_refused R [] (JNum 0) ["24.12.2020:18:00:00"]); [intros s [<-|[]]; eexists; reflexivity|discriminate].
  - apply (weather_file_refused R [] (JNum 0) ["24.12.2020:18:00:00"; "24.13.2020:18:00:00"]). exists "24.13.2020:18:00:00". split; [cbn; auto|reflexivity].
Qed.

(** C141: the weighers refuse radii that are not positive and negative lengths. *)
Theorem weigher_refused : forall radius length norm dims,
  (radius <= 0 -> member_new radius length norm dims = Raise ValueError /\ mean_new radius norm dims = Raise ValueError) /\
  (0 < radius -> length < 0 -> member_new radius length norm dims = Raise ValueError).
Proof.
  intros radius length norm dims. unfold member_new, mean_new. rnum. split.
  - intros H. rewrite Rleb_true by auto. auto.
  - intros H1 H2. rewrite Rleb_false by auto. rewrite Rltb_true by auto. reflexivity.
Qed.
Print Assumptions weigher_refused.

(** C141: smoothing a field without values is an IndexError. *)
Theorem smooth_refused : forall (span : R) times ys, times = [] \/ ys = [] -> smooth_field span times ys = Raise IndexError.
Proof. intros span times ys [-> | ->]; [reflexivity|destruct times; reflexivity]. Qed.
Print Assumptions smooth_refused.
