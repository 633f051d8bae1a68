(** The files of the frames, the satellite and the windows: C95. *)
From Coq Require Import String Ascii List Reals NArith ZArith Bool Arith Lia Lra.
From Verif Require Import Py Num Time_Model Rot_Model Rot_Spec Rot_Props Geo_Model Lvlh_Model Text_Model Text_Spec Text_Num Text_Proofs Text_Props Text_Props2 Save_Model Save_Props.
Import ListNotations.
Open Scope R_scope.
Open Scope list_scope.

(** Saving [r] returns and leaves, under the name with ".txt" added if it was missing, a file
    that reads as described, and every other file as it was. *)
Definition saved (show : num -> text) (d : disk) (r : res writer) (name title : text) (params : list (text * text))
  (cols : list (text * contents)) (n : nat) : Prop :=
  let file := file_name (text_file_writer name None) in
  exists d' content, save_report show d r = (d', Ok tt) /\
    d' file = Some content /\ reads_as content title params cols n /\
    forall other, other <> file -> d' other = d other.
(** The heading of a column with a unit. *)
Definition with_unit (label : string) (unit : text) : text := lit label ++ lit " (" ++ unit ++ lit ")".
Definition numbers (label : string) (unit : text) (l : list num) : text * contents := (with_unit label unit, Numbers l).
(** The name of a unit: no line break and no tab. *)
Definition unit_name (u : text) : Prop := ~ In newline u /\ ~ In tab u.

Lemma saved_report show d name title params cols n :
  rectangular n cols -> Forall (fun c => simple (snd c)) cols ->
  one_line title -> Forall (fun p => one_line (fst p) /\ one_line (snd p)) params ->
  Forall (fun c => one_cell (heading c)) cols -> Forall (fun c => Forall one_cell (texts_of (snd c))) cols ->
  saved show d (Ok (report name title (match params with [] => None | _ => Some params end) cols)) name title params (map (fun c => (heading c, contents_of (snd c))) cols) n.
Proof.
  intros A B C D E F. destruct (C93_read_back show d name title params cols n A B C D E F) as (d' & content & S & I & R).
  exists d', content. split; [exact S|]. split; [exact I|]. split; [exact R|]. destruct (C70_layout _ _ _ _ S) as (ts & _ & _ & O). exact O.
Qed.
Lemma heading_cell label unit l : unit_name unit -> ~ In newline (lit label) -> ~ In tab (lit label) -> one_cell (heading (qty label unit l)).
Proof.
  intros [U1 U2] L1 L2. unfold heading, qty. cbn [snd fst]. split; [|split].
  - rewrite !in_app_iff. cbn. intuition discriminate.
  - rewrite !in_app_iff. cbn. intuition discriminate.
  - rewrite !app_assoc. apply rstrip_last. discriminate.
Qed.
Lemma jd_name : unit_name jd2000_unit.
Proof. split; cbn; intuition discriminate. Qed.
Lemma s_name : unit_name (lit "s").
Proof. split; cbn; intuition discriminate. Qed.
Lemma deg_name : unit_name (lit "deg").
Proof. split; cbn; intuition discriminate. Qed.
Ltac word := cbn; intuition discriminate.
Ltac columns := repeat (apply Forall_cons); try apply Forall_nil.
Ltac heads := columns; apply heading_cell; first [exact jd_name | exact s_name | exact deg_name | assumption | word].
Lemma fins_length l : length (fins l) = length l.
Proof. apply map_length. Qed.

(** *** Positions *)
Lemma position_saved title show d name unit p n : one_line (lit title) -> unit_name unit -> (0 < n)%nat -> of_size n p ->
  saved show d (Ok (position_report title name unit p)) name (lit title) []
    [numbers "Time" jd2000_unit (fins (p_time p)); numbers "X" unit (fins (p_x p)); numbers "Y" unit (fins (p_y p)); numbers "Z" unit (fins (p_z p))] n.
Proof.
  intros T U N (S1 & S2 & S3 & S4).
  refine (saved_report show d name (lit title) [] [qty "Time" jd2000_unit (fins (p_time p)); qty "X" unit (fins (p_x p)); qty "Y" unit (fins (p_y p)); qty "Z" unit (fins (p_z p))] n _ _ T _ _ _).
  - split; [exact N|]. split; [discriminate|]. columns; cbn [snd qty size]; rewrite fins_length; congruence.
  - repeat constructor.
  - constructor.
  - heads.
  - repeat constructor.
Qed.
Theorem C95_positions :
  forall show d name unit p n, unit_name unit -> (0 < n)%nat -> of_size n p ->
    let columns := [numbers "Time" (lit "jd2000") (map Fin (p_time p)); numbers "X" unit (map Fin (p_x p));
                    numbers "Y" unit (map Fin (p_y p)); numbers "Z" unit (map Fin (p_z p))] in
    saved show d (Ok (itrs_report name unit p)) name (lit "ITRS Coordinate Data") [] columns n /\
    saved show d (Ok (gcrs_report name unit p)) name (lit "GCRS Coordinate Data") [] columns n.
Proof. intros. split; apply position_saved; auto; unfold one_line; word. Qed.
(** *** Satellite-centred and geodetic positions *)
Theorem C95_lvlh :
  forall show d name unit (p : lvlh R) n, unit_name unit -> (0 < n)%nat ->
    length (l_time p) = n -> length (l_x p) = n -> length (l_y p) = n -> length (l_z p) = n ->
    saved show d (Ok (lvlh_report name unit p)) name (lit "Satellite LVLH Coordinate Data") []
      [numbers "Time" (lit "jd2000") (map Fin (l_time p)); numbers "X" unit (l_x p); numbers "Y" unit (l_y p); numbers "Z" unit (l_z p)] n.
Proof.
  intros show d name unit p n U N S1 S2 S3 S4.
  refine (saved_report show d name (lit "Satellite LVLH Coordinate Data") [] [qty "Time" jd2000_unit (fins (l_time p)); qty "X" unit (l_x p); qty "Y" unit (l_y p); qty "Z" unit (l_z p)] n _ _ _ _ _ _).
  - split; [exact N|]. split; [discriminate|]. columns; cbn [snd qty size]; rewrite ?fins_length; congruence.
  - repeat constructor.
  - unfold one_line; word.
  - constructor.
  - heads.
  - repeat constructor.
Qed.
Theorem C95_wgs84 :
  forall show d name angular_unit length_unit w n, unit_name angular_unit -> unit_name length_unit -> (0 < n)%nat ->
    length (w_time w) = n -> length (w_latitude w) = n -> length (w_longitude w) = n -> length (w_height w) = n ->
    saved show d (Ok (wgs84_report name angular_unit length_unit w)) name (lit "WGS84 Coordinate Data") []
      [numbers "Time" (lit "jd2000") (map Fin (w_time w)); numbers "Latitude" angular_unit (w_latitude w);
       numbers "Longitude" angular_unit (w_longitude w); numbers "Height" length_unit (w_height w)] n.
Proof.
  intros show d name ua ul w n UA UL N S1 S2 S3 S4.
  refine (saved_report show d name (lit "WGS84 Coordinate Data") [] [qty "Time" jd2000_unit (fins (w_time w)); qty "Latitude" ua (w_latitude w); qty "Longitude" ua (w_longitude w); qty "Height" ul (w_height w)] n _ _ _ _ _ _).
  - split; [exact N|]. split; [discriminate|]. columns; cbn [snd qty size]; rewrite ?fins_length; congruence.
  - repeat constructor.
  - unfold one_line; word.
  - constructor.
  - heads.
  - repeat constructor.
Qed.
(** *** Angles seen from or pointing at a location *)
Definition break (c : N) : Prop := c = newline \/ c = tab.
Lemma digits_no c s : break c -> Forall is_digit s -> ~ In c s.
Proof. intros [->| ->] F; apply digit_not; auto; left; reflexivity. Qed.
Lemma firstn_sub {A} k (l : list A) x : In x (firstn k l) -> In x l.
Proof. intros I. rewrite <- (firstn_skipn k l). apply in_or_app. now left. Qed.
Lemma zfill_no c k s : break c -> ~ In c s -> ~ In c (zfill k s).
Proof. intros B H I. apply in_app_or in I. destruct I as [I|I]; [apply repeat_spec in I; destruct B; subst; discriminate|auto]. Qed.
Lemma fixed2_no c x : break c -> ~ In c (fixed 2 (Fin x)).
Proof. intros B. destruct (fixed_reads 2 x ltac:(lia)) as (y & Y & _). destruct (decimal_cell 2 _ y ltac:(lia) Y) as (A & T & _). destruct B as [->| ->]; auto. Qed.
Lemma sexagesimal_no c a : break c -> ~ In c (sexagesimal_string a).
Proof.
  intros B. unfold sexagesimal_string. intros I. rewrite !in_app_iff in I.
  assert (D : forall n, ~ In c (str_N n)) by (intros n; apply digits_no; auto; destruct (str_N_ok n) as ((D & _) & _); exact D).
  destruct I as [I|[I|[I|[I|[I|I]]]]].
  - apply firstn_sub in I. revert I. apply zfill_no; auto.
  - destruct B; subst; cbn in I; intuition discriminate.
  - apply firstn_sub in I. revert I. apply zfill_no; auto.
  - destruct B; subst; cbn in I; intuition discriminate.
  - revert I. apply zfill_no; auto. now apply fixed2_no.
  - destruct B; subst; cbn in I; intuition discriminate.
Qed.
Lemma location_no c l unit : break c -> ~ In c unit -> ~ In c (location_string l unit).
Proof.
  intros B U I. unfold location_string, iso6709, latitude_string, longitude_string, height_string in I. rewrite !in_app_iff in I.
  destruct I as [[I|I]|[I|[[I|I]|[I|[I|I]]]]].
  - revert I. now apply sexagesimal_no.
  - destruct (Rle_dec _ _), B; subst; cbn in I; intuition discriminate.
  - destruct B; subst; cbn in I; intuition discriminate.
  - revert I. now apply sexagesimal_no.
  - destruct (Rle_dec _ _), B; subst; cbn in I; intuition discriminate.
  - destruct B; subst; cbn in I; intuition discriminate.
  - revert I. now apply fixed2_no.
  - auto.
Qed.
Lemma location_line l unit : unit_name unit -> one_line (location_string l unit).
Proof. intros [U _]. apply location_no; auto. now left. Qed.
Theorem C95_azel :
  forall show d name unit height_unit a n, unit_name unit -> unit_name height_unit -> (0 < n)%nat ->
    length (az_time a) = n -> length (az_azimuth a) = n -> length (az_elevation a) = n ->
    saved show d (Ok (azel_report name unit height_unit a)) name (lit "Azimuth-Elevation Coordinate Data")
      [(lit "Location", location_string (az_location a) height_unit)]
      [numbers "Time" (lit "jd2000") (map Fin (az_time a)); numbers "Azimuth" unit (az_azimuth a); numbers "Elevation" unit (az_elevation a)] n.
Proof.
  intros show d name unit hu a n U HU N S1 S2 S3.
  refine (saved_report show d name (lit "Azimuth-Elevation Coordinate Data") [(lit "Location", location_string (az_location a) hu)] [qty "Time" jd2000_unit (fins (az_time a)); qty "Azimuth" unit (az_azimuth a); qty "Elevation" unit (az_elevation a)] n _ _ _ _ _ _).
  - split; [exact N|]. split; [discriminate|]. columns; cbn [snd qty size]; rewrite ?fins_length; congruence.
  - repeat constructor.
  - unfold one_line; word.
  - constructor; [|constructor]. split; [unfold one_line; word|]. now apply location_line.
  - heads.
  - repeat constructor.
Qed.
Theorem C95_attitude :
  forall show d name unit height_unit a n, unit_name unit -> unit_name height_unit -> (0 < n)%nat ->
    length (t_time a) = n -> length (t_roll a) = n -> length (t_pitch a) = n -> length (t_yaw a) = n ->
    saved show d (Ok (attitude_report name unit height_unit a)) name (lit "Attitude Coordinate Data")
      [(lit "Location", location_string (t_location a) height_unit)]
      [numbers "Time" (lit "jd2000") (map Fin (t_time a)); numbers "Roll" unit (t_roll a); numbers "Pitch" unit (t_pitch a); numbers "Yaw" unit (t_yaw a)] n.
Proof.
  intros show d name unit hu a n U HU N S1 S2 S3 S4.
  refine (saved_report show d name (lit "Attitude Coordinate Data") [(lit "Location", location_string (t_location a) hu)] [qty "Time" jd2000_unit (fins (t_time a)); qty "Roll" unit (t_roll a); qty "Pitch" unit (t_pitch a); qty "Yaw" unit (t_yaw a)] n _ _ _ _ _ _).
  - split; [exact N|]. split; [discriminate|]. columns; cbn [snd qty size]; rewrite ?fins_length; congruence.
  - repeat constructor.
  - unfold one_line; word.
  - constructor; [|constructor]. split; [unfold one_line; word|]. now apply location_line.
  - heads.
  - repeat constructor.
Qed.
(** *** The satellite *)
(** The file has the positions and velocities in both frames, the ones of the inertial frame
    being those that convert back to the ones of the satellite. *)
Theorem C95_satellite :
  forall show d name position_unit velocity_unit p v n, unit_name position_unit -> unit_name velocity_unit -> (0 < n)%nat ->
    of_size n p -> of_size n v ->
    exists gp gv, gcrs_to_itrs gp = Ok p /\ gcrs_to_itrs gv = Ok v /\
      saved show d (satellite_report name position_unit velocity_unit (Satellite p (Some v))) name (lit "Satellite Position and Velocity") []
        [numbers "Time" (lit "jd2000") (map Fin (p_time p));
         numbers "Itrs X" position_unit (map Fin (p_x p)); numbers "Itrs Y" position_unit (map Fin (p_y p)); numbers "Itrs Z" position_unit (map Fin (p_z p));
         numbers "Itrs VX" velocity_unit (map Fin (p_x v)); numbers "Itrs VY" velocity_unit (map Fin (p_y v)); numbers "Itrs VZ" velocity_unit (map Fin (p_z v));
         numbers "Gcrs X" position_unit (map Fin (p_x gp)); numbers "Gcrs Y" position_unit (map Fin (p_y gp)); numbers "Gcrs Z" position_unit (map Fin (p_z gp));
         numbers "Gcrs VX" velocity_unit (map Fin (p_x gv)); numbers "Gcrs VY" velocity_unit (map Fin (p_y gv)); numbers "Gcrs VZ" velocity_unit (map Fin (p_z gv))] n.
Proof.
  intros show d name pu vu p v n UP UV N SP SV.
  destruct (C56_itrs_to_gcrs_and_back _ n p SP) as (gp & EP & SGP & _ & BP). destruct (C56_itrs_to_gcrs_and_back _ n v SV) as (gv & EV & SGV & _ & BV).
  exists gp, gv. split; [exact BP|]. split; [exact BV|]. unfold satellite_report. cbn [sat_position sat_velocity]. rewrite EP, EV. cbn [bind].
  refine (saved_report show d name (lit "Satellite Position and Velocity") [] _ n _ _ _ _ _ _).
  - split; [exact N|]. split; [discriminate|]. destruct SP as (? & ? & ? & ?), SV as (? & ? & ? & ?), SGP as (? & ? & ? & ?), SGV as (? & ? & ? & ?).
    columns; cbn [snd qty size]; rewrite ?fins_length; congruence.
  - repeat constructor.
  - unfold one_line; word.
  - constructor.
  - heads.
  - repeat constructor.
Qed.
(** Without velocities it raises and touches no file. *)
Theorem C95_no_velocity :
  forall show d name position_unit velocity_unit p n, of_size n p ->
    save_report show d (satellite_report name position_unit velocity_unit (Satellite p None)) = (d, Raise AttributeError).
Proof. intros show d name pu vu p n S. destruct (C56_itrs_to_gcrs_and_back _ n p S) as (gp & E & _). unfold satellite_report. cbn [sat_position sat_velocity]. rewrite E. reflexivity. Qed.
(** *** Windows *)
Theorem C95_visible_windows :
  forall show d name w l,
    saved show d (windows_report name (VisibleWindows (w :: l))) name (lit "VisibleTimeWindow Data") []
      [numbers "Rise Time" (lit "jd2000") (map v_rise (w :: l)); numbers "Set Time" (lit "jd2000") (map v_set (w :: l))] (S (length l)).
Proof.
  intros show d name w l. unfold windows_report.
  refine (saved_report show d name (lit "VisibleTimeWindow Data") [] [qty "Rise Time" jd2000_unit (map v_rise (w :: l)); qty "Set Time" jd2000_unit (map v_set (w :: l))] _ _ _ _ _ _ _).
  - split; [lia|]. split; [discriminate|]. columns; cbn [snd qty size]; now rewrite map_length.
  - repeat constructor.
  - unfold one_line; word.
  - constructor.
  - heads.
  - repeat constructor.
Qed.
Theorem C95_observation_windows :
  forall show d name w l, Forall (fun o => one_cell (o_location o)) (w :: l) ->
    let ws := w :: l in
    saved show d (windows_report name (ObservedWindows ws)) name (lit "ObservationWindow Data") []
      [numbers "Start Time" (lit "jd2000") (map o_start ws); numbers "Duration" (lit "s") (map o_duration ws);
       (lit "Location", Texts (map o_location ws));
       numbers "Roll" (lit "deg") (map o_roll ws); numbers "Pitch" (lit "deg") (map o_pitch ws); numbers "Yaw" (lit "deg") (map o_yaw ws)] (S (length l)).
Proof.
  intros show d name w l L ws. unfold windows_report, ws.
  refine (saved_report show d name (lit "ObservationWindow Data") [] [qty "Start Time" jd2000_unit (map o_start ws); qty "Duration" (lit "s") (map o_duration ws); (lit "Location", Objects (map o_location ws)); qty "Roll" (lit "deg") (map o_roll ws); qty "Pitch" (lit "deg") (map o_pitch ws); qty "Yaw" (lit "deg") (map o_yaw ws)] _ _ _ _ _ _ _).
  - split; [lia|]. split; [discriminate|]. columns; cbn [snd qty size]; now rewrite map_length.
  - repeat constructor.
  - unfold one_line; word.
  - constructor.
  - constructor; [apply heading_cell; [exact jd_name|word|word]|]. constructor; [apply heading_cell; [exact s_name|word|word]|]. constructor; [split; [word|split; [word|reflexivity]]|]. heads.
  - constructor; [constructor|]. constructor; [constructor|]. constructor; [|repeat constructor]. cbn [snd texts_of]. apply Forall_map. exact L.
Qed.
(** The printed location of a window is such a cell, for a unit like "m" or "km". *)
Theorem C95_location_cell :
  forall l u c, unit_name (u ++ [c]) -> c <> space -> one_cell (location_string l (u ++ [c])).
Proof.
  intros l u c [U1 U2] C. split; [apply location_no; [now left|auto]|]. split; [apply location_no; [now right|auto]|].
  unfold location_string, iso6709, height_string. rewrite !app_assoc. now apply rstrip_last.
Qed.
(** Saving no windows raises and touches no file. *)
Theorem C95_no_windows :
  forall show d name, save_report show d (windows_report name (VisibleWindows [])) = (d, Raise PyException) /\
    save_report show d (windows_report name (ObservedWindows [])) = (d, Raise PyException).
Proof. intros. split; reflexivity. Qed.
(** Sizes and names as the theorems ask for. *)
Example C95_case :
  unit_name (lit "km") /\ of_size 2 (Position [1; 2] [3; 4] [5; 6] [7; 8] 1) /\ one_cell (location_string (Location 43 (-79) 150 1 1) (lit "m")).
Proof.
  split; [split; word|]. split; [repeat split|]. apply (C95_location_cell _ [] 109%N); [split; word|discriminate].
Qed.
Print Assumptions C93_read_back.
Print Assumptions C94_location.
Print Assumptions C95_positions.
Print Assumptions C95_lvlh.
Print Assumptions C95_wgs84.
Print Assumptions C95_azel.
Print Assumptions C95_attitude.
Print Assumptions C95_satellite.
Print Assumptions C95_no_velocity.
Print Assumptions C95_visible_windows.
Print Assumptions C95_observation_windows.
Print Assumptions C95_location_cell.
Print Assumptions C95_no_windows.
