-Q theories Verif
theories/Base.v
theories/RingBufferModel.v
theories/RingBufferSpec.v
theories/RingBufferProofs.v
theories/RingBufferProps.v
theories/SlipModel.v
theories/SlipSpec.v
theories/SlipProofs.v
theories/SlipProps.v
theories/PortsModel.v
theories/PortsSpec.v
theories/PortsProofs.v
theories/PortsProps.v
theories/PowerPortModel.v
theories/PowerPortProofs.v
theories/PowerPortProps.v
theories/ClockModel.v
theories/ClockSpec.v
theories/ClockProofs.v
theories/ClockProps.v
theories/ObcModel.v
theories/ObcSpec.v
theories/ObcProofs.v
theories/ObcProps.v
theories/SimTimeModel.v
theories/SimTimeSpec.v
theories/SimTimeProofs.v
theories/SimTimeProps.v
theories/TimeModel.v
theories/TimeSpec.v
theories/TimeProofs.v
theories/TimeProps.v
theories/RngModel.v
theories/RngSpec.v
theories/RngProofs.v
theories/RngProps.v
theories/RBase.v
theories/VecModel.v
theories/OdeModel.v
theories/SensorModel.v
theories/SensorProofs.v
theories/SensorProps.v
theories/RegistryModel.v
theories/RegistrySpec.v
theories/RegistryProofs.v
theories/RegistryProps.v
theories/VecProofs.v
theories/PowerModel.v
theories/PowerSpec.v
theories/PowerProofs.v
theories/PowerProps.v
theories/ThermalModel.v
theories/ThermalSpec.v
theories/ThermalProofs.v
theories/ThermalProps.v
theories/StringModel.v
theories/GnssModel.v
theories/GnssSpec.v
theories/GnssProps.v
theories/SettingModel.v
theories/SettingSpec.v
theories/SettingProofs.v
theories/SettingProps.v
theories/WingsModel.v
theories/WingsSpec.v
theories/WingsProofs.v
theories/WingsProps.v
theories/LuModel.v
theories/LuSpec.v
theories/LuProofs.v
theories/LuProps.v
theories/Trig.v
theories/QuatModel.v
theories/QuatSpec.v
theories/QuatProofs.v
theories/QuatProps.v
theories/InterpModel.v
theories/InterpSpec.v
theories/InterpProofs.v
theories/InterpProps.v
theories/RkModel.v
theories/RkSpec.v
theories/RkProofs.v
theories/RkProps.v
theories/LogModel.v
theories/LogSpec.v
theories/LogProofs.v
theories/LogProps.v
theories/McModel.v
theories/McSpec.v
theories/McProofs.v
theories/McProps.v
theories/OrbitModel.v
theories/OrbitSpec.v
theories/Calc.v
theories/KeplerProofs.v
theories/OrbitProofs.v
theories/OeProofs.v
theories/HillProofs.v
theories/OrbitRunSpec.v
theories/PropagateProofs.v
theories/OrbitProps.v
theories/AttitudeModel.v
theories/AttitudeSpec.v
theories/AttitudeProofs.v
theories/AttitudeRunProofs.v
theories/PointingProofs.v
theories/AttitudeProps.v
theories/PointingProps.v
theories/DisturbanceModel.v
theories/DisturbanceSpec.v
theories/DisturbanceProofs.v
theories/ErfProofs.v
theories/DragProofs.v
theories/DisturbanceProps.v
theories/SpacecraftModel.v
theories/SpacecraftProps.v
theories/NodeModel.v
theories/NodeProofs.v
theories/NodeProps.v
theories/ShadowModel.v
theories/ShadowSpec.v
theories/ShadowProofs.v
theories/ShadowProps.v
theories/CelestialModel.v
theories/CelestialSpec.v
theories/CelestialProofs.v
theories/CelestialProps.v
theories/EnvModel.v
theories/EnvSpec.v
theories/EnvProps.v
theories/AtmosphereModel.v
theories/AtmosphereSpec.v
theories/AtmosphereProofs.v
theories/AtmosphereProps.v
theories/WheelModel.v
theories/WheelSpec.v
theories/WheelProofs.v
theories/WheelProps.v
theories/WheelJitterModel.v
theories/WheelJitterSpec.v
theories/WheelJitterProofs.v
theories/WheelJitterProps.v
theories/MagneticModel.v
theories/MagneticSpec.v
theories/MagneticProofs.v
theories/MagneticProps.v
theories/StarModel.v
theories/StarSpec.v
theories/StarProofs.v
theories/StarProps.v
theories/SunSensorModel.v
theories/SunSensorProofs.v
theories/SunSensorProps.v
theories/GeoModel.v
theories/GeoSpec.v
theories/GeoProofs.v
theories/GeoProps.v
theories/GnssRxModel.v
theories/GnssRxSpec.v
theories/GnssRxProofs.v
theories/GnssRxProps.v
theories/ActuatorModel.v
theories/ActuatorProofs.v
theories/ActuatorProps.v
theories/LinkModel.v
theories/LinkProofs.v
theories/LinkProps.v
theories/RelInfoModel.v
theories/RelInfoProofs.v
theories/RelInfoProps.v
theories/TelescopeModel.v
theories/TelescopeProofs.v
theories/TelescopeProps.v
theories/JulianModel.v
theories/JulianProofs.v
theories/JulianProps.v
theories/EarthRotModel.v
theories/EarthRotSpec.v
theories/EarthRotProofs.v
theories/EarthRotProps.v
theories/GravitySpec.v
theories/GravityHarmonics.v
theories/GravityModel.v
theories/GravityProofs.v
theories/GravityGrad.v
theories/GravityJac.v
theories/GravityFile.v
theories/GravityProps.v
theories/IgrfModel.v
theories/IgrfSpec.v
theories/IgrfProofs.v
theories/IgrfCoef.v
theories/IgrfField.v
theories/IgrfGrad.v
theories/IgrfPlace.v
theories/IgrfProps.v
theories/OpticsModel.v
theories/OpticsProps.v
theories/TimeSeriesModel.v
theories/TimeSeriesSpec.v
theories/TimeSeriesProofs.v
theories/TimeSeriesProps.v
theories/GnssSatModel.v
theories/GnssSatSpec.v
theories/GnssSatProofs.v
theories/GnssSatProps.v
theories/Sp3Model.v
theories/Sp3Spec.v
theories/Sp3Proofs.v
theories/Sp3Props.v
theories/Sgp4Model.v
theories/Sgp4Spec.v
theories/Sgp4Proofs.v
theories/Sgp4Loop.v
theories/Sgp4Kepler.v
theories/Sgp4Geom.v
theories/Sgp4Init.v
theories/Sgp4Near.v
theories/Sgp4Total.v
theories/Sgp4Fair.v
theories/Sgp4Runs.v
theories/Sgp4Tle.v
theories/Sgp4Lost.v
theories/Sgp4Props.v
theories/StartModel.v
theories/StartSpec.v
theories/StartProps.v
theories/C2aModel.v
theories/C2aSpec.v
theories/C2aProofs.v
theories/C2aProps.v
theories/HilsTargetModel.v
theories/HilsTargetProps.v
theories/SinexModel.v
theories/SinexSpec.v
theories/SinexProofs.v
theories/SinexProps.v
theories/AntexModel.v
theories/AntexSpec.v
theories/AntexProofs.v
theories/AntexRead.v
theories/AntexProps.v
theories/CompInitModel.v
theories/CompInitSpec.v
theories/CompInitProofs.v
theories/CompInitProps.v
theories/ThermalInitModel.v
theories/ThermalInitSpec.v
theories/ThermalInitProofs.v
theories/ThermalInitProps.v
theories/EnvInitModel.v
theories/EnvInitProofs.v
theories/EnvInitProps.v
theories/TleModel.v
theories/TleSpec.v
theories/TleProofs.v
theories/TleProps.v
theories/SimRunModel.v
theories/SimRunSpec.v
theories/SimRunProofs.v
theories/SimRunProps.v
theories/SampleModel.v
theories/SampleProps.v
theories/SerialExModel.v
theories/SerialExSpec.v
theories/SerialExProofs.v
theories/SerialExProps.v
theories/I2cExModel.v
theories/I2cExProps.v
theories/ChangeModel.v
theories/ChangeProps.v
theories/Sgp4DeepModel.v
theories/Sgp4DeepSpec.v
theories/Sgp4Third.v
theories/Sgp4DeepProofs.v
theories/Sgp4DeepInit.v
theories/Sgp4DeepRes.v
theories/Sgp4DeepCase.v
theories/Sgp4DeepProps.v
theories/RkOrbitSpec.v
theories/RkOrbitProofs.v
theories/RkOrbitProps.v
theories/InitialProps.v
theories/RelRkSpec.v
theories/RelRkProofs.v
theories/RelRkProps.v
theories/SpinSpec.v
theories/SpinProofs.v
theories/SpinProps.v
theories/HeatSpec.v
theories/HeatProofs.v
theories/HeatProps.v
theories/ConvSpec.v
theories/ConvProofs.v
theories/ConvProps.v
theories/OrbConvSpec.v
theories/OrbConvProofs.v
theories/OrbConvProps.v
theories/AttConvSpec.v
theories/AttConvProofs.v
theories/AttConvProps.v
theories/LogFileModel.v
theories/LogFileSpec.v
theories/LogFileProofs.v
theories/LogFileProps.v
