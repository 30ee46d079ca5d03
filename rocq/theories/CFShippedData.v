(** GENERATED by tools/cfdata.py from xoa/cf.cfg:1-1067: the sections of the shipped CF configuration,
    as ConfigObj reads them (before validation). *)
From Verif Require Export Misc.
Open Scope string_scope.

(** xoa/cf.cfg, section [data_vars] *)
Definition cfcfg_data_vars : list (string * pyval) := [
  ("ptemp", VDict [("cmap", VStr "cmo.thermal"); 
   ("attrs", VDict [("standard_name", VStr "sea_water_potential_temperature"); 
    ("long_name", VStr "Potential temperature"); 
    ("units", VStr "degrees_celsius")])]);
  ("temp", VDict [("inherit", VStr "ptemp"); 
   ("name", VStr "temperature"); 
   ("attrs", VDict [("standard_name", VStr "sea_water_temperature"); 
    ("long_name", VStr "Temperature")])]);
  ("sal", VDict [("name", VList [VStr "psal"; VStr "salinity"]); 
   ("cmap", VStr "cmo.haline"); 
   ("attrs", VDict [("standard_name", VStr "sea_water_salinity"); 
    ("long_name", VStr "Salinity"); 
    ("units", VList [VStr "1e-3"; VStr "PSU"])])]);
  ("sst", VDict [("cmap", VStr "cmo.thermal"); 
   ("attrs", VDict [("standard_name", VList [VStr "sea_surface_temperature"; VStr "surface_sea_water_temperature"]); 
    ("long_name", VStr "Sea surface temperature"); 
    ("units", VStr "degrees_celsius")])]);
  ("sss", VDict [("cmap", VStr "cmo.haline"); 
   ("attrs", VDict [("standard_name", VStr "sea_surface_salinity"); 
    ("long_name", VStr "Sea surface salinity"); 
    ("units", VStr "PSU")])]);
  ("dens", VDict [("cmap", VStr "cmo.dense"); 
   ("attrs", VDict [("standard_name", VStr "sea_water_density"); 
    ("long_name", VStr "Sea water density"); 
    ("units", VStr "kg m-3")])]);
  ("sigmat", VDict [("cmap", VStr "cmo.dense"); 
   ("attrs", VDict [("standard_name", VStr "sea_water_sigma_t"); 
    ("long_name", VStr "Sea water density minus 1000"); 
    ("units", VStr "kg m-3")])]);
  ("ndens", VDict [("cmap", VStr "cmo.dense"); 
   ("attrs", VDict [("standard_name", VStr "sea_water_neutral_density"); 
    ("long_name", VStr "Sea water neutral density"); 
    ("units", VStr "kg m-3")])]);
  ("sigmatheta", VDict [("cmap", VStr "cmo.dense"); 
   ("attrs", VDict [("standard_name", VStr "sea_water_sigma_theta"); 
    ("long_name", VStr "Sea water potential density minus 1000"); 
    ("units", VStr "kg m-3")])]);
  ("pdens", VDict [("name", VStr "sigma0"); 
   ("cmap", VStr "cmo.dense"); 
   ("attrs", VDict [("standard_name", VStr "sea_water_potential_density"); 
    ("long_name", VStr "Sea water potential density"); 
    ("units", VStr "kg m-3")])]);
  ("sigma0", VDict [("inherit", VStr "pdens"); 
   ("cmap", VStr "cmo.dense")]);
  ("sigma1", VDict [("cmap", VStr "cmo.dense"); 
   ("attrs", VDict [("standard_name", VStr "sea_water_potential_density"); 
    ("long_name", VStr "Sea water potential density with ref at 1000 dbar"); 
    ("units", VStr "kg m-3")])]);
  ("sigma2", VDict [("cmap", VStr "cmo.dense"); 
   ("attrs", VDict [("standard_name", VStr "sea_water_potential_density"); 
    ("long_name", VStr "Sea water potential density with ref at 2000 dbar"); 
    ("units", VStr "kg m-3")])]);
  ("sigma3", VDict [("cmap", VStr "cmo.dense"); 
   ("attrs", VDict [("standard_name", VStr "sea_water_potential_density"); 
    ("long_name", VStr "Sea water potential density with ref at 3000 dbar"); 
    ("units", VStr "kg m-3")])]);
  ("sigma4", VDict [("cmap", VStr "cmo.dense"); 
   ("attrs", VDict [("standard_name", VStr "sea_water_potential_density"); 
    ("long_name", VStr "Sea water potential density with ref at 4000 dbar"); 
    ("units", VStr "kg m-3")])]);
  ("ssd", VDict [("cmap", VStr "cmo.dense"); 
   ("attrs", VDict [("standard_name", VStr "sea_surface_density"); 
    ("long_name", VStr "Sea surface density"); 
    ("units", VStr "PSU")])]);
  ("conduct", VDict [("attrs", VDict [("standard_name", VStr "sea_water_electrical_conductivity"); 
    ("long_name", VStr "Sea water electrial conductivity"); 
    ("units", VStr "S m-1")])]);
  ("sndspd", VDict [("attrs", VDict [("standard_name", VStr "speed_of_sound_in_sea_water"); 
    ("long_name", VStr "Speed of sound in water"); 
    ("units", VStr "m s-1")])]);
  ("mld", VDict [("attrs", VDict [("standard_name", VStr "mixed_layer_depth"); 
    ("long_name", VStr "Mixed layer depth"); 
    ("units", VStr "m")])]);
  ("ped", VDict [("attrs", VDict [("standard_name", VStr "potential_energy_deficit"); 
    ("long_name", VStr "Potential energy deficit"); 
    ("units", VStr "J m-2")])]);
  ("ohc", VDict [("cmap", VStr "cmo.thermal"); 
   ("attrs", VDict [("standard_name", VStr "ocean_heat_content"); 
    ("long_name", VStr "Ocean heat content"); 
    ("units", VStr "J")])]);
  ("osc", VDict [("cmap", VStr "cmo.haline"); 
   ("attrs", VDict [("standard_name", VStr "ocean_salt_content"); 
    ("long_name", VStr "Ocean salt content"); 
    ("units", VStr "kg")])]);
  ("cp", VDict [("cmap", VStr "cmo.thermal"); 
   ("attrs", VDict [("standard_name", VStr "specific_heat_capacity"); 
    ("long_name", VStr "Specific heat capacity"); 
    ("units", VStr "J K-1")])]);
  ("ssh", VDict [("name", VList [VStr "xe"; VStr "wlv"]); 
   ("cmap", VStr "cmo.balance:piv0"); 
   ("attrs", VDict [("standard_name", VList [VStr "sea_surface_height"; VStr "sea_surface_height_above_sea_level"; VStr "sea_surface_height_above_geoid"]); 
    ("long_name", VStr "Sea surface height"); 
    ("units", VStr "m")])]);
  ("u", VDict [("name", VList [VStr "uz"; VStr "u3d"]); 
   ("cmap", VStr "cmo.delta:piv0"); 
   ("attrs", VDict [("standard_name", VStr "sea_water_x_velocity"); 
    ("long_name", VStr "Sea water velocity along X"); 
    ("units", VStr "m s-1")])]);
  ("v", VDict [("name", VList [VStr "vz"; VStr "v3d"]); 
   ("cmap", VStr "cmo.delta:piv0"); 
   ("attrs", VDict [("standard_name", VStr "sea_water_y_velocity"); 
    ("long_name", VStr "Sea water velocity along Y"); 
    ("units", VStr "m s-1")])]);
  ("w", VDict [("name", VList [VStr "wz"; VStr "w3d"]); 
   ("cmap", VStr "cmo.delta:piv0"); 
   ("attrs", VDict [("standard_name", VList [VStr "sea_water_z_velocity_at_w_location"; VStr "sea_water_z_velocity"]); 
    ("long_name", VStr "Sea water velocity along Z at W location"); 
    ("units", VStr "m s-1")])]);
  ("u3d", VDict [("name", VStr "uz"); 
   ("cmap", VStr "cmo.delta:piv0"); 
   ("attrs", VDict [("standard_name", VStr "sea_water_x_velocity"); 
    ("long_name", VStr "Sea water velocity along X"); 
    ("units", VStr "m s-1")])]);
  ("v3d", VDict [("name", VStr "vz"); 
   ("cmap", VStr "cmo.delta:piv0"); 
   ("attrs", VDict [("standard_name", VStr "sea_water_y_velocity"); 
    ("long_name", VStr "Sea water velocity along Y"); 
    ("units", VStr "m s-1")])]);
  ("w3d", VDict [("name", VStr "wz"); 
   ("cmap", VStr "cmo.delta:piv0"); 
   ("attrs", VDict [("standard_name", VList [VStr "sea_water_z_velocity_at_w_location"; VStr "sea_water_z_velocity"]); 
    ("long_name", VStr "Sea water velocity along Z at W location"); 
    ("units", VStr "m s-1")])]);
  ("ubt", VDict [("name", VList [VStr "u2d"; VStr "u"]); 
   ("cmap", VStr "cmo.delta:piv0"); 
   ("attrs", VDict [("standard_name", VStr "barotropic_sea_water_x_velocity"); 
    ("long_name", VStr "Sea water barotropic velocity along X"); 
    ("units", VStr "m s-1")])]);
  ("vbt", VDict [("name", VList [VStr "v2d"; VStr "v"]); 
   ("cmap", VStr "cmo.delta:piv0"); 
   ("attrs", VDict [("standard_name", VStr "barotropic_sea_water_y_velocity"); 
    ("long_name", VStr "Sea water barotropic velocity along Y"); 
    ("units", VStr "m s-1")])]);
  ("ubc", VDict [("name", VStr "u"); 
   ("cmap", VStr "cmo.delta:piv0"); 
   ("attrs", VDict [("standard_name", VStr "baroclinic_sea_water_x_velocity"); 
    ("long_name", VStr "Sea water baroclinic velocity along X"); 
    ("units", VStr "m s-1")])]);
  ("vbc", VDict [("name", VStr "v"); 
   ("attrs", VDict [("standard_name", VStr "baroclinic_sea_water_y_velocity"); 
    ("long_name", VStr "Sea water baroclinic velocity along Y"); 
    ("units", VStr "m s-1")])]);
  ("usurf", VDict [("cmap", VStr "cmo.delta:piv0"); 
   ("attrs", VDict [("standard_name", VList [VStr "sea_surface_x_velocity"; VStr "eastward_sea_water_velocity"]); 
    ("long_name", VList [VStr "Sea surface velocity along X"; VStr "Eastward surface current"; VStr "Eastward current"]); 
    ("units", VStr "m s-1")])]);
  ("vsurf", VDict [("cmap", VStr "cmo.delta:piv0"); 
   ("attrs", VDict [("standard_name", VList [VStr "sea_surface_y_velocity"; VStr "northward_sea_water_velocity"]); 
    ("long_name", VList [VStr "Sea surface velocity along Y"; VStr "Northward surface current"; VStr "Northward current"]); 
    ("units", VStr "m s-1")])]);
  ("ugbt", VDict [("cmap", VStr "cmo.delta:piv0"); 
   ("attrs", VDict [("standard_name", VList [VStr "barotropic_sea_water_x_geostrophic_velocity"; VStr "eastward_geostrophic_current_velocity"]); 
    ("long_name", VStr "Sea water barotropic geostrophic velocity along X"); 
    ("units", VStr "m s-1")])]);
  ("vgbt", VDict [("cmap", VStr "cmo.delta:piv0"); 
   ("attrs", VDict [("standard_name", VList [VStr "barotropic_sea_water_y_geostrophic_velocity"; VStr "northward_geostrophic_current_velocity"]); 
    ("long_name", VStr "Sea water barotropic geostrophic velocity along Y"); 
    ("units", VStr "m s-1")])]);
  ("cspd", VDict [("cmap", VStr "cmo.amp"); 
   ("attrs", VDict [("standard_name", VStr "sea_water_speed"); 
    ("long_name", VStr "Sea water speed"); 
    ("units", VStr "m s-1")])]);
  ("speed", VDict [("inherit", VStr "cspd")]);
  ("cdir", VDict [("cmap", VStr "cmo.phase:cyc360"); 
   ("attrs", VDict [("standard_name", VStr "direction_of_sea_water_velocity"); 
    ("long_name", VStr "Direction of sea water velocity"); 
    ("units", VStr "degrees")])]);
  ("ke", VDict [("attrs", VDict [("standard_names", VStr "kinetic_energy"); 
    ("long_name", VStr "Kinetic energy"); 
    ("units", VStr "m2 s-2")])]);
  ("eke", VDict [("attrs", VDict [("standard_names", VStr "eddy_kinetic_energy"); 
    ("long_name", VStr "Eddy kinetic energy"); 
    ("units", VStr "m2 s-2")])]);
  ("tke", VDict [("attrs", VDict [("standard_names", VStr "turbulent_kinetic_energy"); 
    ("long_name", VStr "Turbulent kinetic energy"); 
    ("units", VStr "m2 s-2")])]);
  ("mke", VDict [("standard_names", VStr "mean_kinetic_energy"); 
   ("long_name", VStr "Mean kinetic energy"); 
   ("units", VStr "m2 s-2")]);
  ("kz", VDict [("name", VList [VStr "kz"; VStr "kzm"]); 
   ("attrs", VDict [("standard_name", VStr "average_ocean_vertical_tracer_diffusivity"); 
    ("long_name", VStr "Vertical diffusivity"); 
    ("units", VStr "m2 s-1")])]);
  ("vaisa", VDict [("name", VStr "vaisala"); 
   ("attrs", VDict [("standard_name", VList [VStr "brunt_vaisala_frequency_in_sea_water"; VStr "brunt_vaisala_frequency"]); 
    ("long_name", VStr "Brunt Vaisala frequency"); 
    ("units", VStr "s-1")])]);
  ("bathy", VDict [("name", VList [VStr "h0"; VStr "dpt"]); 
   ("cmap", VStr "cmo.deep"); 
   ("attrs", VDict [("standard_name", VList [VStr "model_sea_floor_depth_below_sea_level"; VStr "model_sea_floor_depth_below_geoid"; VStr "sea_floor_depth_below_geoid"]); 
    ("long_name", VStr "Bathymetry"); 
    ("units", VStr "m")])]);
  ("meanlev", VDict [("name", VStr "niv_moy"); 
   ("attrs", VDict [("standard_name", VList [VStr "mean_sea_level_above_sea_floor_depth_at_lowest_astronomical_tide"; VStr "mean_sea_level"]); 
    ("long_name", VStr "Mean Sea Level"); 
    ("units", VStr "m")])]);
  ("depth", VDict [("name", VStr "dep"); 
   ("cmap", VStr "cmo.deep"); 
   ("attrs", VDict [("standard_name", VStr "ocean_layer_depth"); 
    ("long_name", VStr "Depth"); 
    ("units", VStr "m")])]);
  ("altitude", VDict [("name", VList [VStr "altitudet"; VStr "altitudeu"; VStr "altitudev"]); 
   ("cmap", VStr "cmo.deep"); 
   ("attrs", VDict [("standard_name", VStr "atmosphere_layer_altitude"); 
    ("long_name", VStr "Altitude"); 
    ("units", VStr "m")])]);
  ("dx", VDict [("attrs", VDict [("standard_name", VStr "cell_x_size"); 
    ("long_name", VStr "Mesh size along x"); 
    ("units", VStr "m")])]);
  ("dy", VDict [("attrs", VDict [("standard_name", VStr "cell_y_size"); 
    ("long_name", VStr "Mesh size along y"); 
    ("units", VStr "m")])]);
  ("ex", VDict [("attrs", VDict [("standard_name", VStr "inverse_of_cell_x_size"); 
    ("long_name", VStr "Inverse of mesh size along x"); 
    ("units", VStr "m-1")])]);
  ("ey", VDict [("attrs", VDict [("standard_name", VStr "inverse_of_cell_y_size"); 
    ("long_name", VStr "Inverse of mesh size along y"); 
    ("units", VStr "m-1")])]);
  ("dz", VDict [("attrs", VDict [("standard_name", VStr "ocean_layer_thickness"); 
    ("long_name", VStr "Ocean layer thickness"); 
    ("units", VStr "m")])]);
  ("dlon", VDict [("attrs", VDict [("standard_name", VList [VStr "cell_x_size"; VStr "cell_x_step"]); 
    ("long_name", VStr "Mesh size along x"); 
    ("units", VStr "degrees")])]);
  ("dlat", VDict [("attrs", VDict [("standard_name", VList [VStr "cell_y_step"; VStr "cell_y_size"]); 
    ("long_name", VStr "Mesh step along y"); 
    ("units", VStr "degrees")])]);
  ("cvol", VDict [("attrs", VDict [("standard_name", VStr "cell_volume"); 
    ("long_name", VStr "Volume of the cell"); 
    ("units", VStr "m3")])]);
  ("vol", VDict [("attrs", VDict [("standard_name", VStr "seawater_volume"); 
    ("long_name", VStr "Volume of the sea water"); 
    ("units", VStr "m3")])]);
  ("corio", VDict [("name", VStr "f0"); 
   ("attrs", VDict [("standard_name", VStr "coriolis_parameter"); 
    ("long_name", VStr "Coriolis parameter"); 
    ("units", VStr "s-1")])]);
  ("beta", VDict [("attrs", VDict [("standard_name", VStr "meridional_derivative_of_coriolis_parameter"); 
    ("long_name", VStr "Meridional derivative of coriolis parameter"); 
    ("units", VStr "m-1 s-1")])]);
  ("oro", VDict [("name", VStr "zs"); 
   ("attrs", VDict [("standard_name", VStr "orography"); 
    ("long_name", VStr "Orography for SLEVE vertical coordinates"); 
    ("units", VStr "m")])]);
  ("orosm", VDict [("attrs", VDict [("standard_name", VStr "smoothed_orography"); 
    ("long_name", VStr "Smoothed orography for SLEVE vertical coordinates"); 
    ("units", VStr "m")])]);
  ("nethf", VDict [("name", VStr "nethf"); 
   ("cmap", VStr "cmo.curl:piv0"); 
   ("attrs", VDict [("standard_name", VList [VStr "surface_net_averaged_downward_radiative_flux"; VStr "surface_net_downward_radiative_flux"]); 
    ("long_name", VStr "Net radiation"); 
    ("units", VStr "W m-2")])]);
  ("lwnhf", VDict [("cmap", VStr "cmo.solar"); 
   ("attrs", VDict [("standard_name", VStr "surface_net_downward_longwave_flux"); 
    ("long_name", VStr "Net longwave radiation (positive when directed downward)"); 
    ("units", VStr "W m-2")])]);
  ("swnhf", VDict [("cmap", VStr "cmo.solar"); 
   ("attrs", VDict [("standard_name", VStr "surface_net_downward_shortwave_flux"); 
    ("long_name", VStr "Net shortwave radiation (positive when directed downward)"); 
    ("units", VStr "W m-2")])]);
  ("ghf", VDict [("name", VStr "ghf"); 
   ("cmap", VStr "cmo.solar"); 
   ("attrs", VDict [("standard_name", VStr "averaged_downward_ground_heat_flux"); 
    ("long_name", VStr "Ground heat flux (SW + LW - LE - H)"); 
    ("units", VStr "W m-2")])]);
  ("lwuhf", VDict [("cmap", VStr "cmo.solar"); 
   ("attrs", VDict [("standard_name", VStr "surface_upward_longwave_flux"); 
    ("long_name", VStr "Longwave radiation (positive when directed upward)"); 
    ("units", VStr "W m-2")])]);
  ("swuhf", VDict [("cmap", VStr "cmo.solar"); 
   ("attrs", VDict [("standard_name", VStr "surface_upward_shortwave_flux"); 
    ("long_name", VStr "Shortwave radiation (positive when directed upward)"); 
    ("units", VStr "W m-2")])]);
  ("lwdhf", VDict [("cmap", VStr "cmo.solar"); 
   ("attrs", VDict [("standard_name", VStr "surface_downward_longwave_flux"); 
    ("long_name", VStr "Longwave radiation (positive when directed downward)"); 
    ("units", VStr "W m-2")])]);
  ("swdhf", VDict [("cmap", VStr "cmo.solar"); 
   ("attrs", VDict [("standard_name", VStr "surface_downward_shortwave_flux"); 
    ("long_name", VStr "Shortwave radiation (positive when directed downward)"); 
    ("units", VStr "W m-2")])]);
  ("lathf", VDict [("cmap", VStr "cmo.solar"); 
   ("attrs", VDict [("standard_name", VStr "surface_downward_latent_heat_flux"); 
    ("long_name", VStr "Latent heat flux (positive when directed downward)"); 
    ("units", VStr "W.m-2")])]);
  ("hflat", VDict [("cmap", VStr "cmo.solar"); 
   ("attrs", VDict [("standard_name", VList [VStr "surface_averaged_upward_latent_heat_flux"; VStr "upward_latent_heat_flux"; VStr "surface_upward_latent_heat_flux"]); 
    ("long_name", VStr "Latent heat flux (positive when directed upward)"); 
    ("units", VStr "W.m-2")])]);
  ("senhf", VDict [("cmap", VStr "cmo.solar"); 
   ("attrs", VDict [("standard_name", VStr "surface_downward_sensible_heat_flux"); 
    ("long_name", VStr "Sensible heat flux (positive when directed downward)"); 
    ("units", VStr "W m-2")])]);
  ("hfsen", VDict [("cmap", VStr "cmo.solar"); 
   ("attrs", VDict [("standard_name", VList [VStr "surface_averaged_upward_sensible_heat_flux"; VStr "upward_sensible_heat_flux"; VStr "surface_upward_sensible_heat_flux"]); 
    ("long_name", VStr "Sensible heat flux (positive when directed upward)"); 
    ("units", VStr "W m-2")])]);
  ("evap", VDict [("cmap", VStr "cmo.amp"); 
   ("attrs", VDict [("standard_name", VStr "lwe_thickness_of_water_evaporation_amount"); 
    ("long_name", VStr "evaporation (positive when directed downward)"); 
    ("units", VStr "m")])]);
  ("rain", VDict [("cmap", VStr "cmo.rain"); 
   ("attrs", VDict [("standard_name", VList [VStr "lwe_thickness_of_precipitation_amount"; VStr "lwe_thickness_of_downward_precipitation_amount"]); 
    ("long_name", VStr "Precipitation [Downward (positive when it is raining)]"); 
    ("units", VList [VStr "m"; VStr "mm"])])]);
  ("t2m", VDict [("cmap", VStr "cmo.thermal"); 
   ("standard_name", VStr "air_potential_temperature_at_2_meters"); 
   ("long_name", VStr "2 m temperature"); 
   ("units", VList [VStr "K"; VStr "degrees_kelvin"])]);
  ("q2m", VDict [("cmap", VStr "cmo.dense"); 
   ("attrs", VDict [("standard_name", VStr "air_specific_humidity_at_2_meters"); 
    ("long_name", VStr "2 m specific humidity"); 
    ("units", VStr "kg kg-1")])]);
  ("hu2m", VDict [("name", VStr "q2m"); 
   ("cmap", VStr "cmo.dense"); 
   ("attrs", VDict [("standard_name", VStr "air_relative_specific_humidity_at_2_meters"); 
    ("long_name", VStr "2 m specific humidity"); 
    ("units", VStr "kg kg-1")])]);
  ("z0a", VDict [("name", VStr "z0"); 
   ("attrs", VDict [("standard_name", VList [VStr "air_surface_roughness_length"; VStr "surface_roughness_length"; VStr "roughness_length"]); 
    ("long_name", VStr "Air roughness length"); 
    ("units", VStr "m")])]);
  ("cda", VDict [("name", VStr "cd"); 
   ("attrs", VDict [("standard_name", VList [VStr "averaged_drag_momentum_coefficient_in_air"; VStr "drag_momentum_coefficient_in_air"]); 
    ("long_name", VList [VStr "Averaged drag momentum coefficient"; VStr "Drag momentum coefficient"]); 
    ("units", VStr "W s-2")])]);
  ("cha", VDict [("name", VStr "ch"); 
   ("attrs", VDict [("standard_name", VList [VStr "averaged_drag_thermal_coefficient_in_air"; VStr "drag_thermal_coefficient_in_air"]); 
    ("long_name", VList [VStr "Averaged drag thermal coefficient"; VStr "Drag thermal coefficient"]); 
    ("units", VStr "W s-2")])]);
  ("cea", VDict [("name", VStr "ce"); 
   ("attrs", VDict [("standard_name", VList [VStr "averaged_latent_heat_coefficient_in_air"; VStr "latent_heat_coefficient_in_air"]); 
    ("long_name", VList [VStr "Averaged latent heat flux coefficient"; VStr "Latent heat flux coefficient"]); 
    ("units", VStr "W s-2")])]);
  ("wspd", VDict [("cmap", VStr "cmo.speed"); 
   ("attrs", VDict [("standard_name", VStr "wind_speed"); 
    ("long_name", VStr "Wind speed"); 
    ("units", VStr "m s-1")])]);
  ("wdir", VDict [("cmap", VStr "cmo.phase:cyc360"); 
   ("attrs", VDict [("standard_name", VList [VStr "wind_to_direction"; VStr "wind_from_direction"]); 
    ("long_name", VStr "Wind direction"); 
    ("units", VStr "degrees")])]);
  ("wfdir", VDict [("attrs", VDict [("standard_name", VStr "wind_from_direction"); 
    ("long_name", VStr "Wind from direction"); 
    ("units", VStr "degrees"); 
    ("cmap", VStr "cmo.phase:cyc360")])]);
  ("wtdir", VDict [("cmap", VStr "cmo.phase:cyc360"); 
   ("attrs", VDict [("standard_name", VStr "wind_to_direction"); 
    ("long_name", VStr "Wind to direction"); 
    ("units", VStr "degrees")])]);
  ("uair", VDict [("name", VList [VStr "uair"; VStr "ua"; VStr "uwnd"]); 
   ("cmap", VStr "cmo.delta:piv0"); 
   ("attrs", VDict [("standard_name", VList [VStr "eastward_wind"; VStr "x_wind"]); 
    ("long_name", VStr "Zonal wind speed (westerly)"); 
    ("units", VStr "m s-1")])]);
  ("vair", VDict [("name", VList [VStr "vair"; VStr "va"; VStr "vwnd"]); 
   ("cmap", VStr "cmo.delta:piv0"); 
   ("attrs", VDict [("standard_name", VList [VStr "northward_wind"; VStr "y_wind"]); 
    ("long_name", VStr "Meridional wind speed (northerly)"); 
    ("units", VStr "m s-1")])]);
  ("wair", VDict [("name", VList [VStr "wa"; VStr "wwnd"]); 
   ("cmap", VStr "cmo.curl:piv0"); 
   ("attrs", VDict [("standard_name", VList [VStr "upward_wind"; VStr "z_wind"]); 
    ("long_name", VStr "Upward wind speed"); 
    ("units", VStr "m s-1")])]);
  ("tair", VDict [("name", VList [VStr "temp"; VStr "tht"]); 
   ("cmap", VStr "cmo.thermal"); 
   ("attrs", VDict [("standard_name", VList [VStr "air_potential_temperature"; VStr "air_temperature"]); 
    ("long_name", VStr "Temperature"); 
    ("units", VList [VStr "degrees_kelvin"; VStr "K"])])]);
  ("pa", VDict [("name", VStr "psl"); 
   ("attrs", VDict [("standard_name", VList [VStr "air_pressure_at_sea_level"; VStr "air_pressure_at_mean_sea_level"]); 
    ("long_name", VStr "Absolute pressure"); 
    ("units", VStr "Pa")])]);
  ("ps", VDict [("attrs", VDict [("standard_name", VStr "surface_air_pressure"); 
    ("long_name", VStr "Surface air pressure"); 
    ("units", VStr "Pa")])]);
  ("plev", VDict [("attrs", VDict [("standard_name", VStr "air_pressure"); 
    ("long_name", VStr "Air pressure"); 
    ("units", VStr "Pa")])]);
  ("ptop", VDict [("attrs", VDict [("standard_name", VStr "air_pressure_at_top_of_atmosphere_model"); 
    ("long_name", VStr "Air pressure at top of model"); 
    ("units", VStr "Pa")])]);
  ("tkea", VDict [("cmap", VStr "cmo.amp"); 
   ("attrs", VDict [("standard_name", VStr "air_turbulent_kinetic_energy"); 
    ("long_name", VStr "Turbulent Kinetic Energy"); 
    ("units", VStr "m2 s-2")])]);
  ("u10m", VDict [("attrs", VDict [("standard_name", VList [VStr "x_wind_at_10m"; VStr "x_wind"; VStr "x_wind_at_u_location"; VStr "x_wind_at_10m_at_u_location"; VStr "eastward_wind"]); 
    ("long_name", VStr "10-m zonal wind speed (westerly)"); 
    ("units", VStr "m s-1"); 
    ("cmap", VStr "cmo.delta:piv0")])]);
  ("v10m", VDict [("attrs", VDict [("standard_name", VList [VStr "y_wind_at_10m"; VStr "y_wind"; VStr "y_wind_at_v_location"; VStr "y_wind_at_10m_at_v_location"; VStr "northward_wind"]); 
    ("long_name", VStr "10-m meridional wind speed (northerly)"); 
    ("units", VStr "m s-1"); 
    ("cmap", VStr "cmo.delta:piv0")])]);
  ("w10m", VDict [("cmap", VStr "cmo.curl:piv0"); 
   ("attrs", VDict [("standard_name", VList [VStr "z_wind_at_10m"; VStr "upward_wind_at_10m"]); 
    ("long_name", VStr "10-m meridional wind speed (northerly)"); 
    ("units", VStr "m s-1")])]);
  ("ux10m", VDict [("cmap", VStr "cmo.delta:piv0"); 
   ("attrs", VDict [("standard_name", VList [VStr "x_wind_at_10m"; VStr "x_wind"; VStr "grid_eastward_wind"; VStr "x_wind_at_u_location"; VStr "x_wind_at_10m_at_u_location"]); 
    ("long_name", VStr "10-m wind speed along X"); 
    ("units", VStr "m s-1")])]);
  ("vy10m", VDict [("cmap", VStr "cmo.delta:piv0"); 
   ("attrs", VDict [("standard_name", VList [VStr "y_wind_at_10m"; VStr "y_wind"; VStr "grid_northward_wind"; VStr "y_wind_at_v_location"; VStr "y_wind_at_10m_at_v_location"]); 
    ("long_name", VStr "10-m wind speed along Y"); 
    ("units", VStr "m s-1")])]);
  ("tauu", VDict [("attrs", VDict [("standard_name", VList [VStr "surface_downward_eastward_stress"; VStr "surface_eastward_stress"; VStr "surface_downward_x_stress"]); 
    ("long_name", VStr "Surface eastward wind stress"); 
    ("units", VList [VStr "N m-2"; VStr "Pa"]); 
    ("cmap", VStr "cmo.diff:piv0")])]);
  ("tauv", VDict [("cmap", VStr "cmo.diff:piv0"); 
   ("attrs", VDict [("standard_name", VList [VStr "surface_downward_northward_stress"; VStr "surface_northward_stress"; VStr "surface_downward_y_stress"]); 
    ("long_name", VStr "Surface northward wind stress"); 
    ("units", VList [VStr "N m-2"; VStr "Pa"])])]);
  ("taux", VDict [("name", VStr "ustress"); 
   ("cmap", VStr "cmo.diff:piv0"); 
   ("attrs", VDict [("standard_name", VList [VStr "surface_downward_x_stress"; VStr "surface_x_stress"; VStr "surface_downward_x_stress_at_u_location"]); 
    ("long_name", VStr "Surface wind stress along X"); 
    ("units", VStr "N m-2")])]);
  ("tauy", VDict [("name", VStr "vstress"); 
   ("cmap", VStr "cmo.diff:piv0"); 
   ("attrs", VDict [("standard_name", VList [VStr "surface_downward_y_stress"; VStr "surface_y_stress"; VStr "surface_downward_y_stress_at_v_location"]); 
    ("long_name", VStr "Surface wind stress along Y"); 
    ("units", VStr "N m-2")])]);
  ("topheight", VDict [("attrs", VDict [("standard_name", VList [VStr "maximum_height"; VStr "height_above_geopotential_datum_at_top_of_atmosphere_model"]); 
    ("long_name", VStr "height of the top level"); 
    ("units", VStr "m")])]);
  ("hs", VDict [("name", VStr "hm0"); 
   ("cmap", VStr "cmo.amp"); 
   ("attrs", VDict [("standard_name", VList [VStr "sea_surface_wave_significant_height"; VStr "significant_height_of_wind_and_swell_waves"]); 
    ("long_name", VList [VStr "Significant wave height"; VStr "Significant height of wind and swell waves"]); 
    ("units", VStr "m")])]);
  ("mssx", VDict [("attrs", VDict [("standard_name", VList [VStr "eastward_mean_square_slope"; VStr "x_mean_square_slope"]); 
    ("long_name", VStr "Eastward mean square slope"); 
    ("units", VStr "m m-1")])]);
  ("mssy", VDict [("attrs", VDict [("standard_name", VList [VStr "nortward_mean_square_slope"; VStr "y_mean_square_slope"]); 
    ("long_name", VStr "Northward mean square slope"); 
    ("units", VStr "m m-1")])]);
  ("mss", VDict [("name", VStr "mss"); 
   ("attrs", VDict [("standard_name", VStr "mean_square_slope"); 
    ("long_name", VStr "mean square slope"); 
    ("units", VStr "m m-1")])]);
  ("mlw", VDict [("cmap", VStr "cmo.tempo"); 
   ("attrs", VDict [("standard_name", VStr "mean_wave_length"); 
    ("long_name", VStr "Mean wave length"); 
    ("units", VStr "m")])]);
  ("t0m1", VDict [("attrs", VDict [("standard_name", VStr "sea_surface_wind_wave_mean_period_from_variance_spectral_density_inverse_frequency_moment"); 
    ("long_name", VStr "Mean wave period"); 
    ("units", VStr "s"); 
    ("cmap", VStr "cmo.tempo")])]);
  ("dp", VDict [("name", VStr "dp"); 
   ("cmap", VStr "cmo.phase:cyc360"); 
   ("attrs", VDict [("standard_name", VStr "sea_surface_wave_peak_direction"); 
    ("long_name", VStr "Peak direction"); 
    ("units", VStr "degrees")])]);
  ("tp", VDict [("cmap", VStr "cmo.tempo"); 
   ("attrs", VDict [("standard_name", VStr "sea_surface_wave_peak_period"); 
    ("long_name", VStr "Peak period"); 
    ("units", VStr "s")])]);
  ("fp", VDict [("cmap", VStr "cmo.tempo"); 
   ("attrs", VDict [("standard_name", VStr "peak_frequency_of_wind_and_swell_waves"); 
    ("long_name", VList [VStr "Peak frequency"; VStr "Frequency of wind and swell waves at spectral peak"]); 
    ("units", VStr "s-1")])]);
  ("th1p", VDict [("name", VStr "dir"); 
   ("cmap", VStr "cmo.phase:cyc360"); 
   ("attrs", VDict [("standard_name", VStr "sea_surface_wave_from_direction"); 
    ("long_name", VList [VStr "Mean wave direction"; VStr "Mean direction of wind and swell waves at spectral peak"]); 
    ("units", VStr "degree")])]);
  ("char", VDict [("name", VStr "cha"); 
   ("attrs", VDict [("standard_name", VStr "charnock_coefficient_for_surface_roughness_length_for_momentum_in_air"); 
    ("long_name", VStr "Charnock coefficient for surface roughness length for momentum in air")])]);
  ("ubr", VDict [("cmap", VStr "cmo.amp"); 
   ("attrs", VDict [("standard_name", VStr "rms_amplitude_of_orbital_bottom_velocity_of_wind_and_swell_waves"); 
    ("long_name", VStr "Near bottom rms velocities"); 
    ("units", VStr "m s-1")])]);
  ("uubr", VDict [("cmap", VStr "cmo.amp"); 
   ("attrs", VDict [("standard_name", VStr "rms_of_bottom_zonal_velocity_amplitude"); 
    ("long_name", VStr "Rms of near bottom zonal velocities"); 
    ("units", VStr "m s-1")])]);
  ("vubr", VDict [("cmap", VStr "cmo.amp"); 
   ("attrs", VDict [("standard_name", VStr "rms_of_bottom_meridional_velocity_amplitude"); 
    ("long_name", VStr "Rms of near bottom meridional velocities"); 
    ("units", VStr "m s-1")])]);
  ("bhd", VDict [("attrs", VDict [("standard_name", VStr "bernoulli_head_pressure_of_wind_and_swell_waves"); 
    ("long_name", VStr "Radiation pressure (Bernoulli head)"); 
    ("units", VStr "N s-1")])]);
  ("foc", VDict [("name", VStr "phioc"); 
   ("attrs", VDict [("standard_name", VStr "turbulent_kinetic_energy_flux_into_sea_water_due_to_surface_dissipation_wave"); 
    ("long_name", VStr "Wave mixing kinetic turbulent energy due to surface breaking wave"); 
    ("units", VList [VStr "W m-2"; VStr "m3 s-3"])])]);
  ("utwo", VDict [("name", VStr "tauox"); 
   ("attrs", VDict [("standard_name", VList [VStr "x_component_of_surface_wave_ocean_momentum_flux"; VStr "northward_wave_to_ocean_stress"]); 
    ("long_name", VStr "Zonal component of the surface wave-ocean momentum flux"); 
    ("units", VStr "m2 s-2")])]);
  ("vtwo", VDict [("name", VStr "tauoy"); 
   ("attrs", VDict [("standard_name", VList [VStr "y_component_of_surface_wave_ocean_momentum_flux"; VStr "northward_wave_to_ocean_stress"]); 
    ("long_name", VStr "Meridional component of the surface wave-ocean momentum flux"); 
    ("units", VStr "m2 s-2")])]);
  ("utaw", VDict [("attrs", VDict [("standard_name", VStr "x_component_of_wave_supported_wind_stress"); 
    ("long_name", VList [VStr "Eastward wave supported wind stress"; VStr "Zonal component of the atmosphere-wave momentum flux"]); 
    ("units", VStr "m2 s-2")])]);
  ("vtaw", VDict [("attrs", VDict [("standard_name", VStr "y_component_of_wave_supported_wind_stress"); 
    ("long_name", VList [VStr "Northward wave supported wind stress"; VStr "Meridional component of the atmosphere-wave momentum flux"]); 
    ("units", VStr "m2 s-2")])]);
  ("fbb", VDict [("attrs", VDict [("standard_name", VStr "wave_energy_dissipation_in_bottom_boundary_layer"); 
    ("long_name", VStr "Wave dissipation in bottom boundary layer"); 
    ("units", VStr "W m-2")])]);
  ("utbb", VDict [("attrs", VDict [("standard_name", VList [VStr "x_component_of_bottom_wave_ocean_momentum_flux"; VStr "eastward_wave_to_bottom_boundary_layer_stress"]); 
    ("long_name", VStr "Zonal component of the bottom wave-ocean momentum flux"); 
    ("units", VStr "m2 s-2")])]);
  ("vtbb", VDict [("attrs", VDict [("standard_name", VList [VStr "y_component_of_bottom_wave_ocean_momentum_flux"; VStr "northward_wave_to_bottom_boundary_layer_stress"]); 
    ("long_name", VStr "Meridional component of the bottom wave-ocean momentum flux"); 
    ("units", VStr "m2 s-2")])]);
  ("uuss", VDict [("attrs", VDict [("standard_name", VStr "eastward_surface_stokes_drift"); 
    ("long_name", VStr "Eastward surface stokes drift"); 
    ("units", VStr "m s-1")])]);
  ("vuss", VDict [("attrs", VDict [("standard_name", VStr "northward_surface_stokes_drift"); 
    ("long_name", VStr "Northward surface stokes drift"); 
    ("units", VStr "m s-1")])]);
  ("utus", VDict [("attrs", VDict [("standard_name", VStr "eastward_stokes_transport"); 
    ("long_name", VStr "Eastward stokes transport"); 
    ("units", VStr "m2 s-1")])]);
  ("vtus", VDict [("attrs", VDict [("standard_name", VStr "northward_stokes_transport"); 
    ("long_name", VStr "Northward stokes transport"); 
    ("units", VStr "m2 s-1")])]);
  ("mapsta", VDict [("attrs", VDict [("standard_name", VStr "status_map"); 
    ("long_name", VStr "Status map"); 
    ("units", VStr "1")])]);
  ("wlv", VDict [("attrs", VDict [("units", VStr "m")])]);
  ("sig", VDict [("name", VList [VStr "s_level"; VStr "sigma"; VStr "s"; VStr "sigma_level"]); 
   ("attrs", VDict [("standard_name", VList [VStr "ocean_sigma_coordinate"; VStr "ocean_s_coordinate"; VStr "atmosphere_sigma_coordinate"; VStr "atmosphere_s_coordinate"; VStr "ocean_s_coordinate_g1"; VStr "ocean_s_coordinate_g2"]); 
    ("long_name", VStr "Sigma level")])]);
  ("cs", VDict [("attrs", VDict [("standard_name", VStr "ocean_s_coordinate_function"); 
    ("long_name", VStr "S-coordinate stretching curves")])]);
  ("hc", VDict [("attrs", VDict [("standard_name", VStr "ocean_s_coordinate_thick_of_surface_resolution"); 
    ("long_name", VStr "Sigma-coordinate critical depth")])]);
  ("thetas", VDict [("attrs", VDict [("standard_name", VStr "ocean_s_coordinate_surface_control")])]);
  ("thetab", VDict [("attrs", VDict [("standard_name", VStr "ocean_s_coordinate_bottom_control")])])
].
(** xoa/cf.cfg, section [coords] *)
Definition cfcfg_coords : list (string * pyval) := [
  ("time", VDict [("attrs", VDict [("standard_name", VStr "time"); 
    ("long_name", VStr "Time"); 
    ("axis", VStr "T")])]);
  ("lon", VDict [("name", VList [VStr "longitude"; VStr "nav_lon"]); 
   ("search_order", VStr "snu"); 
   ("attrs", VDict [("standard_name", VList [VStr "longitude"; VStr "longitudes"]); 
    ("long_name", VStr "Longitude"); 
    ("units", VList [VStr "degrees_east"; VStr "degree_east"; VStr "degree_e"; VStr "degrees_e"; VStr "degreee"; VStr "degreese"]); 
    ("axis", VStr "X")])]);
  ("lat", VDict [("name", VList [VStr "latitude"; VStr "nav_lat"; VStr "latitudes"]); 
   ("search_order", VStr "snu"); 
   ("attrs", VDict [("standard_name", VStr "latitude"); 
    ("long_name", VStr "Latitude"); 
    ("units", VList [VStr "degrees_north"; VStr "degree_north"; VStr "degree_n"; VStr "degrees_n"; VStr "degreen"; VStr "degreesn"]); 
    ("axis", VStr "Y")])]);
  ("x", VDict [("name", VStr "xi"); 
   ("attrs", VDict [("standard_name", VStr "x_grid_index"); 
    ("long_name", VStr "X-dimension of the grid")])]);
  ("y", VDict [("name", VStr "yi"); 
   ("attrs", VDict [("standard_name", VStr "y_grid_index"); 
    ("long_name", VStr "Y-dimension of the grid")])]);
  ("depth", VDict [("inherit", VStr "data_vars:depth"); 
   ("attrs", VDict [("axis", VStr "Z")])]);
  ("altitude", VDict [("inherit", VStr "data_vars:altitude"); 
   ("attrs", VDict [("axis", VStr "Z")])]);
  ("sig", VDict [("inherit", VStr "data_vars:sig"); 
   ("attrs", VDict [("axis", VStr "Z")])]);
  ("level", VDict [("inherit", VStr "sig"); 
   ("name", VStr "model_level"); 
   ("attrs", VDict [("standard_name", VStr "model_level_number"); 
    ("long_name", VStr "Model level number"); 
    ("axis", VStr "Z")])]);
  ("forecast", VDict [("attrs", VDict [("standard_name", VList [VStr "fct"; VStr "forecast_time"]); 
    ("long_name", VStr "Forecast"); 
    ("axis", VStr "F")])])
].
(** xoa/cf.cfg, section [dims] *)
Definition cfcfg_dims : list (string * pyval) := [
  ("x", VList [VStr "nx"; VStr "ni"; VStr "x"; VStr "imt"; VStr "ipi"; VStr "xi"]);
  ("y", VList [VStr "ny"; VStr "nj"; VStr "y"; VStr "jmt"; VStr "jpj"; VStr "yi"]);
  ("z", VList [VStr "nz"; VStr "nk"; VStr "z"; VStr "kmt"; VStr "level"; VStr "zi"]);
  ("t", VList [VStr "nt"; VStr "t"]);
  ("f", VStr "nf")
].
