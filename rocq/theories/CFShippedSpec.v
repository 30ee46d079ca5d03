(** Specification vocabulary for C65-C67: the shipped CF configuration. *)
From Verif Require Export CFShipped CFSearchSpec CFFormatSpec.
Open Scope string_scope.

(** The array is called [n], up to case, or [n] followed by "_" and a location *)
Definition is_called (n v : string) : Prop :=
  lower v = n \/ exists l, letters l /\ lower v = n ++ "_" ++ l.
Definition called (n : string) (da : darr) : Prop := exists v, da_name da = Some v /\ is_called n v.
(** Its standard name is [s], up to case, maybe with a location *)
Definition titled (s : string) (da : darr) : Prop :=
  exists v, da_get da "standard_name" = VStr v /\
  (lower v = lower s \/ exists l, letters l /\ lower v = lower s ++ "_at_" ++ l ++ "_location").
(** It has no such attribute *)
Definition without (k : string) (da : darr) : Prop := da_get da k = VNone.
(** It has no name, or one that no entry accepts *)
Definition unnamed (cs : catspecs) (da : darr) : Prop :=
  forall v n sp ref, da_name da = Some v -> In (n, sp) cs -> In ref (n :: s_names sp) -> ~ fits shipped_sg MAny "name" v ref.

(** Names with a part that reads as a location *)
Definition located_names : list string := ["niv_moy"; "nav_lon"; "nav_lat"; "s_level"; "sigma_level"; "model_level"].
(** The variables whose names belong to a previous variable: entry, one of its names, the
    owner of this name *)
Definition taken_var_names : list (string * string * string) :=
  [("sigma0", "sigma0", "pdens");
   ("u3d", "u3d", "u"); ("u3d", "uz", "u"); ("v3d", "v3d", "v"); ("v3d", "vz", "v"); ("w3d", "w3d", "w"); ("w3d", "wz", "w");
   ("ubt", "u", "u"); ("vbt", "v", "v"); ("ubc", "u", "u"); ("vbc", "v", "v"); ("hu2m", "q2m", "q2m");
   ("tair", "temp", "temp"); ("char", "cha", "cha"); ("wlv", "wlv", "ssh")].
Definition taken_coord_names : list (string * string * string) :=
  [("level", "sigma", "sig"); ("level", "s", "sig")].
Definition taken_var_titles : list (string * string * string) :=
  [("temp", "sea_water_potential_temperature", "ptemp");
   ("sigma0", "sea_water_potential_density", "pdens"); ("sigma1", "sea_water_potential_density", "pdens");
   ("sigma2", "sea_water_potential_density", "pdens"); ("sigma3", "sea_water_potential_density", "pdens");
   ("sigma4", "sea_water_potential_density", "pdens");
   ("u3d", "sea_water_x_velocity", "u"); ("v3d", "sea_water_y_velocity", "v"); ("w3d", "sea_water_z_velocity", "w");
   ("speed", "sea_water_speed", "cspd"); ("dlon", "cell_x_size", "dx"); ("dlat", "cell_y_size", "dy");
   ("wfdir", "wind_from_direction", "wdir"); ("wtdir", "wind_to_direction", "wdir");
   ("u10m", "x_wind", "uair"); ("u10m", "eastward_wind", "uair"); ("v10m", "y_wind", "vair"); ("v10m", "northward_wind", "vair");
   ("ux10m", "x_wind_at_10m", "u10m"); ("ux10m", "x_wind", "uair");
   ("vy10m", "y_wind_at_10m", "v10m"); ("vy10m", "y_wind", "vair");
   ("taux", "surface_downward_x_stress", "tauu"); ("tauy", "surface_downward_y_stress", "tauv");
   ("vtwo", "northward_wave_to_ocean_stress", "utwo")].
Definition taken_coord_titles : list (string * string * string) :=
  map (fun s => ("level", s, "sig"))
    ["ocean_sigma_coordinate"; "ocean_s_coordinate"; "atmosphere_sigma_coordinate"; "atmosphere_s_coordinate";
     "ocean_s_coordinate_g1"; "ocean_s_coordinate_g2"].
Definition owner (taken : list (string * string * string)) (n a : string) : string :=
  match List.find (fun t => String.eqb (fst (fst t)) n && String.eqb (snd (fst t)) a) taken with
  | Some t => snd t
  | None => n
  end.
(** The standard names of an entry, those with a location left out *)
Definition titles (sp : spec) : list string :=
  match dget (s_attrs sp) "standard_name" with Some r => ref_list r | None => [] end.
Definition located_titles : list string :=
  ["sea_water_z_velocity_at_w_location"; "x_wind_at_u_location"; "x_wind_at_10m_at_u_location"; "y_wind_at_v_location";
   "y_wind_at_10m_at_v_location"; "surface_downward_x_stress_at_u_location"; "surface_downward_y_stress_at_v_location"].

(** C66: the variables that are not recognised after having been formatted, and what they are
    taken for *)
Definition taken_formatted : list (string * string) :=
  [("sigma0", "pdens"); ("sigma1", "pdens"); ("sigma2", "pdens"); ("sigma3", "pdens"); ("sigma4", "pdens");
   ("u3d", "u"); ("v3d", "v"); ("w3d", "w"); ("speed", "cspd"); ("dlon", "dx"); ("wfdir", "wdir"); ("wtdir", "wdir");
   ("ux10m", "u10m"); ("vy10m", "v10m"); ("taux", "tauu"); ("tauy", "tauv"); ("wlv", "ssh")].
Definition formatted_owner (n : string) : string := match dget taken_formatted n with Some m => m | None => n end.
Definition plain_loc (loc : larg) : Prop :=
  match loc with LNone => True | LStr s => letters s | _ => False end.
