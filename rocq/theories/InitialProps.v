(** C167: what objects report between construction and their first update. *)
From Coq Require Import Reals Lra Lia List ZArith Bool.
From Verif Require Import Base RBase VecModel QuatModel QuatSpec GeoModel RngModel RngSpec.
From Verif Require PowerModel PowerPortModel RegistryModel SunSensorModel MagneticModel GnssRxModel EnvModel TelescopeModel RelInfoModel ShadowModel.
Import ListNotations.
Open Scope R_scope.

(** a power port: 10 A and 3.3 V unless given, no power, no voltage, no current; whether it is on is defined for
    the constructor without arguments only *)
Theorem C167_power_port limit minv p :
  (let d := PowerPortModel.port_default in PowerPortModel.limit_A d = 10 /\ PowerPortModel.min_V d = 3.3 /\ PowerPortModel.power_W d = 0 /\
     PowerPortModel.voltage_V d = 0 /\ PowerPortModel.current_A d = 0 /\ PowerPortModel.is_on d = Some true) /\
  (let d := PowerPortModel.port_id_limit limit in PowerPortModel.limit_A d = limit /\ PowerPortModel.min_V d = 3.3 /\ PowerPortModel.power_W d = 0 /\
     PowerPortModel.voltage_V d = 0 /\ PowerPortModel.current_A d = 0 /\ PowerPortModel.is_on d = None) /\
  (let d := PowerPortModel.port_full limit minv p in PowerPortModel.limit_A d = limit /\ PowerPortModel.min_V d = minv /\ PowerPortModel.power_W d = p /\
     PowerPortModel.voltage_V d = 0 /\ PowerPortModel.current_A d = 0 /\ PowerPortModel.is_on d = None).
Proof. cbn. repeat split; lra. Qed.
Print Assumptions C167_power_port.
(** the battery charges with the given rate times the capacity of all its parallel strings *)
Theorem C167_battery pre ns np cap coef dod0 crate cv res dt : let b := PowerModel.battery_new pre ns np cap coef dod0 crate cv res dt in
  PowerModel.cc_current b = crate * (cap * IZR np) /\ PowerModel.cv_voltage b = cv /\ PowerModel.dod b = dod0 /\ PowerModel.n_series b = ns /\
  PowerModel.n_parallel b = np /\ PowerModel.capacity_Ah b = cap /\ PowerModel.resistance b = res /\ PowerModel.step_s b = dt /\
  PowerModel.bat_voltage b = None /\ PowerModel.charge_current b = None.
Proof. cbn. repeat split. ring. Qed.
Print Assumptions C167_battery.
(** sensors and actuators: nothing measured, nothing put out *)
Theorem C167_sun_sensor : let s := SunSensorModel.sun_sensor_new in
  (forall i, SunSensorModel.ss_true_c s i = 0 /\ SunSensorModel.ss_measured_c s i = 0) /\ SunSensorModel.ss_alpha s = 0 /\ SunSensorModel.ss_beta s = 0 /\
  SunSensorModel.ss_illuminance s = 0 /\ SunSensorModel.ss_detected s = false.
Proof. cbn. repeat split. Qed.
Print Assumptions C167_sun_sensor.
Theorem C167_magnetorquer : let m := MagneticModel.mtq_new in
  forall i, MagneticModel.mq_moment_c m i = 0 /\ MagneticModel.mq_moment_b m i = 0 /\ MagneticModel.mq_torque_b m i = 0.
Proof. cbn. repeat split. Qed.
Print Assumptions C167_magnetorquer.
Theorem C167_gnss_receiver : let g := GnssRxModel.gnss_rx_new in
  (forall i, (i < 3)%nat -> GnssRxModel.gr_pos g i = 0 /\ GnssRxModel.gr_vel g i = 0) /\ geo_lat (GnssRxModel.gr_geo g) = 0 /\ geo_lon (GnssRxModel.gr_geo g) = 0 /\
  geo_alt (GnssRxModel.gr_geo g) = 0 /\ GnssRxModel.gr_week g = 0%Z /\ GnssRxModel.gr_sec g = 0 /\ GnssRxModel.gr_visible g = false /\ GnssRxModel.gr_count g = 0%nat /\ GnssRxModel.gr_channels g = [].
Proof. cbn. repeat split; intros; destruct i as [|[|[|i]]]; reflexivity || lia. Qed.
Print Assumptions C167_gnss_receiver.
Theorem C167_i2c_target : let t := RegistryModel.target_new in
  RegistryModel.max_reg t = 0xff%Z /\ RegistryModel.saved t = 0%Z /\ RegistryModel.frames t = 0%Z /\ forall i, RegistryModel.registers t i = 0%Z /\ RegistryModel.command t i = 0%Z.
Proof. cbn. repeat split. Qed.
Print Assumptions C167_i2c_target.
(** the telescope: no star is marked -1 everywhere, the ground position is the centre *)
Theorem C167_telescope : TelescopeModel.sr_pos TelescopeModel.no_star = (-1, -1) /\
  TelescopeModel.sr_data TelescopeModel.no_star = TelescopeModel.mkHip (-1) (-1) (-1) (-1) /\ TelescopeModel.ground_initial = (0, 0).
Proof. repeat split. Qed.
Print Assumptions C167_telescope.
(** relative quantities of spacecraft nobody has updated yet *)
Theorem C167_relative_information : let b := RelInfoModel.blank in
  (forall i, (i < 3)%nat -> RelInfoModel.re_pos_i b i = 0 /\ RelInfoModel.re_vel_i b i = 0 /\ RelInfoModel.re_pos_rtn b i = 0 /\ RelInfoModel.re_vel_rtn b i = 0) /\
  RelInfoModel.re_dist b = 0 /\ forall i, (i < 4)%nat -> RelInfoModel.re_q b i = if Nat.eqb i 3 then 1 else 0.
Proof. cbn. repeat split; intros; destruct i as [|[|[|[|i]]]]; reflexivity || lia. Qed.
Print Assumptions C167_relative_information.
(** the environment of a spacecraft: the light pressure of 1366 W/m2, full sunlight, everything else zero *)
Theorem C167_environment g : let e := EnvModel.new_environment g in
  EnvModel.pressure e = 1366 / 299792458 /\ EnvModel.coefficient e = Some 1 /\ EnvModel.albedo_W e = Some 0 /\ EnvModel.infrared_W e = 0 /\ EnvModel.air_density e = 0 /\ forall i, EnvModel.field_i e i = 0 /\ EnvModel.field_b e i = 0.
Proof. cbn. repeat split. Qed.
Print Assumptions C167_environment.
(** generators of random numbers: a product outside the range of long is undefined *)
Theorem C18_long_overflow z : (in_long z -> chk z = Ok z) /\ (~ in_long z -> chk z = UB).
Proof.
  unfold in_long, chk. destruct (Z.leb_spec (- 2 ^ 63) z), (Z.ltb_spec z (2 ^ 63)); cbn [andb]; split; intro G; try reflexivity; exfalso; lia.
Qed.
Print Assumptions C18_long_overflow.
