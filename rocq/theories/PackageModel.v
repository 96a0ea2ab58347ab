(** Model of the parameters of the package: the tables of eprem/runtime.json,
    eprem/runtime.py and core/reference.py, and eprem/runtime.py 825-877,
    [Interface], on top of the models of configuration files and evaluation
    ([RuntimeModel]), aliases ([AliasedModel]) and arguments
    ([ParametersModel]). *)

From Coq Require Import String Ascii List Bool ZArith QArith Qcanon Lia.
From Verif Require Import Py PyDict SymbolicModel RuntimeModel AliasedModel.
From Verif Require ParametersModel.
Import ListNotations.
Open Scope list_scope.
Open Scope nat_scope.
Open Scope py_scope.

(** * Tables *)

(** The constants: runtime.json, "_BASETYPES_H". *)
Definition constants : list (str * str) := [
  (lit "AU", lit "1.495978707e13");
  (lit "BADINT", lit "2147483647");
  (lit "BADVALUE", lit "1.0e33");
  (lit "C", lit "2.99792458e10");
  (lit "DAY", lit "( TAU / (24.0 * 60.0 * 60.0)  )");
  (lit "EV", lit "1.6022e-12");
  (lit "F", lit "0");
  (lit "FCONVERT", lit "( 1.0e30 / (C * C * C * C) )");
  (lit "GEV", lit "1.6022e-3");
  (lit "MAS_B_CONVERT", lit "sqrt(4.0*PI*MAS_RHO_NORM)*MAS_LENGTH_NORM / MAS_TIME_NORM / MHD_B_NORM");
  (lit "MAS_LENGTH_NORM", lit "6.96e10");
  (lit "MAS_RHO_CONVERT", lit "(MAS_RHO_NORM / MP) / MHD_DENSITY_NORM");
  (lit "MAS_RHO_NORM", lit "1.6726e-16");
  (lit "MAS_TIME_CONVERT", lit "MAS_TIME_NORM / (24.0 * 60.0 * 60.0)");
  (lit "MAS_TIME_NORM", lit "1445.87003080685");
  (lit "MAS_V_CONVERT", lit "( MAS_LENGTH_NORM / MAS_TIME_NORM ) / C");
  (lit "MAX_STRING_SIZE", lit "240");
  (lit "MEV", lit "1.6022e-6");
  (lit "MHD_BATSRUS", lit "3");
  (lit "MHD_B_NORM", lit "( sqrt(MP*MHD_DENSITY_NORM) * C )");
  (lit "MHD_DEFAULT", lit "0");
  (lit "MHD_DENSITY_NORM", lit "1.0");
  (lit "MHD_ENLIL", lit "1");
  (lit "MHD_LFMH", lit "2");
  (lit "MHD_MAS", lit "4");
  (lit "MP", lit "1.6726e-24");
  (lit "MZERO", lit "(MP*C*C/GEV)");
  (lit "NUM_MPI_BOUNDARY_FLDS", lit "2");
  (lit "OM", lit "( MHD_B_NORM * Q * AU / (MP * C * C) )");
  (lit "PI", lit "3.1415926535897932");
  (lit "Q", lit "4.80320425e-10");
  (lit "RSAU", lit "(RSUN/AU)");
  (lit "RSUN", lit "6.96e10");
  (lit "T", lit "1");
  (lit "TAU", lit "( AU / C )");
  (lit "THRESH", lit "0.025");
  (lit "TWO_PI", lit "6.283185307179586");
  (lit "VERYSMALL", lit "1.0e-33");
  (lit "VOLT", lit "0.33333e-2")].
(** The parameters with the types (runtime.py 389-396) of their modes and their defaults: runtime.json, "_CONFIGURATION_C".  Their limits are not used. *)
Definition parameters : list (str * (rtype * str)) := [
  (lit "FailModeDump", (TInt, lit "1"));
  (lit "aziSunStart", (TFloat, lit "0.0"));
  (lit "boundaryFunctAmplitude", (TFloat, lit "1.0"));
  (lit "boundaryFunctBeta", (TFloat, lit "1.7"));
  (lit "boundaryFunctEcutoff", (TFloat, lit "1.0"));
  (lit "boundaryFunctGamma", (TFloat, lit "2.0"));
  (lit "boundaryFunctXi", (TFloat, lit "1.0"));
  (lit "boundaryFunctionInitDomain", (TInt, lit "1"));
  (lit "charge", (TList, lit "[1.0]"));
  (lit "checkSeedPopulation", (TInt, lit "1"));
  (lit "clusterNodes", (TInt, lit "0"));
  (lit "dsh_hel_min", (TFloat, lit "2.5e-4"));
  (lit "dsh_min", (TFloat, lit "5.0e-5"));
  (lit "dumpFreq", (TInt, lit "1"));
  (lit "dumpOnAbort", (TInt, lit "0"));
  (lit "eMax", (TFloat, lit "1000.0"));
  (lit "eMin", (TFloat, lit "1.0"));
  (lit "epCalcStartTime", (TFloat, lit "config.simStartTime"));
  (lit "epEquilibriumCalcDuration", (TFloat, lit "0.0"));
  (lit "epremDomain", (TInt, lit "0"));
  (lit "epremDomainOutputTime", (TFloat, lit "0.0"));
  (lit "fieldAligned", (TInt, lit "0"));
  (lit "flowMag", (TFloat, lit "400.0e5"));
  (lit "fluxLimiter", (TInt, lit "1"));
  (lit "focusingLimit", (TFloat, lit "1.0"));
  (lit "gammaEhigh", (TFloat, lit "0.0"));
  (lit "gammaElow", (TFloat, lit "0.0"));
  (lit "idealShock", (TInt, lit "0"));
  (lit "idealShockInitTime", (TFloat, lit "config.simStartTime"));
  (lit "idealShockJump", (TFloat, lit "4.0"));
  (lit "idealShockPhi", (TFloat, lit "0.0"));
  (lit "idealShockScaleLength", (TFloat, lit "0.0046491"));
  (lit "idealShockSharpness", (TFloat, lit "1.0"));
  (lit "idealShockSpeed", (TFloat, lit "1500e5"));
  (lit "idealShockTheta", (TFloat, lit "1.570796"));
  (lit "idealShockWidth", (TFloat, lit "0.0"));
  (lit "idw_p", (TFloat, lit "3.0"));
  (lit "kperxkpar", (TFloat, lit "0.01"));
  (lit "lamo", (TFloat, lit "1.0"));
  (lit "masCorRotateFake", (TInt, lit "0"));
  (lit "masCouple", (TInt, lit "0"));
  (lit "masCoupledTime", (TInt, lit "1"));
  (lit "masDigits", (TInt, lit "3"));
  (lit "masDirectory", (TStr, lit ""));
  (lit "masHelCouple", (TInt, lit "0"));
  (lit "masHelDigits", (TInt, lit "3"));
  (lit "masHelDirectory", (TStr, lit ""));
  (lit "masHelNumFiles", (TInt, lit "0"));
  (lit "masHelRadialMax", (TFloat, lit "0.0"));
  (lit "masHelRadialMin", (TFloat, lit "0.0"));
  (lit "masInitFromOuterBoundary", (TInt, lit "2"));
  (lit "masInitMonteCarlo", (TInt, lit "0"));
  (lit "masInitRadius", (TFloat, lit "0.0"));
  (lit "masInitTimeStep", (TFloat, lit "0.000011574074074"));
  (lit "masNumFiles", (TInt, lit "0"));
  (lit "masRadialMax", (TFloat, lit "0.0"));
  (lit "masRadialMin", (TFloat, lit "0.0"));
  (lit "masRotateSolution", (TInt, lit "1"));
  (lit "masStartTime", (TFloat, lit "0.0"));
  (lit "masSteadyState", (TInt, lit "1"));
  (lit "masTriLinear", (TInt, lit "1"));
  (lit "masVmin", (TFloat, lit "50.0e5"));
  (lit "mass", (TList, lit "[1.0]"));
  (lit "mfpRadialPower", (TFloat, lit "2.0"));
  (lit "mhdBAu", (TFloat, lit "1.60e-5"));
  (lit "mhdDensityAu", (TFloat, lit "8.30"));
  (lit "minInjectionEnergy", (TFloat, lit "0.01"));
  (lit "nodeClusterPhi", (TFloat, lit "0.0"));
  (lit "nodeClusterTheta", (TFloat, lit "1.570796"));
  (lit "nodeClusterWidth", (TFloat, lit "0.0"));
  (lit "numColumnsPerFace", (TInt, lit "2"));
  (lit "numEnergySteps", (TInt, lit "20"));
  (lit "numEpSteps", (TInt, lit "30"));
  (lit "numMuSteps", (TInt, lit "20"));
  (lit "numNodesPerStream", (TInt, lit "N_PROCS"));
  (lit "numObservers", (TInt, lit "0"));
  (lit "numRowsPerFace", (TInt, lit "2"));
  (lit "numSpecies", (TInt, lit "1"));
  (lit "obsPhi", (TList, lit "[0]"));
  (lit "obsR", (TList, lit "[0]"));
  (lit "obsTheta", (TList, lit "[0]"));
  (lit "omegaSun", (TFloat, lit "(0.004144/MAS_TIME_NORM)*TAU"));
  (lit "outputFloat", (TInt, lit "0"));
  (lit "outputRestart", (TInt, lit "0"));
  (lit "parallelFlow", (TFloat, lit "0.0"));
  (lit "pointObserverOutput", (TInt, lit "0"));
  (lit "pointObserverOutputTime", (TFloat, lit "0.0"));
  (lit "preEruptionDuration", (TFloat, lit "0.0"));
  (lit "rScale", (TFloat, lit "0.005"));
  (lit "rigidityPower", (TFloat, lit "third"));
  (lit "saveRestartFile", (TInt, lit "0"));
  (lit "seedFunctionTest", (TInt, lit "0"));
  (lit "shockDetectPercent", (TFloat, lit "1.0"));
  (lit "shockInjectionFactor", (TFloat, lit "1.0"));
  (lit "shockSolver", (TInt, lit "0"));
  (lit "simStartTime", (TFloat, lit "0.0"));
  (lit "simStopTime", (TFloat, lit "config.simStartTime + config.tDel"));
  (lit "streamFluxOutput", (TInt, lit "0"));
  (lit "streamFluxOutputTime", (TFloat, lit "0.0"));
  (lit "subTimeCouple", (TInt, lit "0"));
  (lit "tDel", (TFloat, lit "0.01041666666667"));
  (lit "unifiedOutput", (TInt, lit "1"));
  (lit "unifiedOutputTime", (TFloat, lit "0.0"));
  (lit "unstructuredDomain", (TInt, lit "0"));
  (lit "unstructuredDomainOutputTime", (TFloat, lit "0.0"));
  (lit "useAdiabaticChange", (TInt, lit "1"));
  (lit "useAdiabaticFocus", (TInt, lit "1"));
  (lit "useBoundaryFunction", (TInt, lit "1"));
  (lit "useDrift", (TInt, lit "0"));
  (lit "useEPBoundary", (TInt, lit "1"));
  (lit "useMasSteadyStateDt", (TInt, lit "1"));
  (lit "useParallelDiffusion", (TInt, lit "1"));
  (lit "useShellDiffusion", (TInt, lit "0"));
  (lit "useStochastic", (TInt, lit "0"));
  (lit "warningsFile", (TStr, lit "warningsXXX.txt"))].
(** The types of the constants: runtime.py 188-225 and 1311-1507. *)
Definition constant_types : list (str * rtype) := [
  (lit "T", TInt);
  (lit "F", TInt);
  (lit "PI", TFloat);
  (lit "TWO_PI", TFloat);
  (lit "VERYSMALL", TFloat);
  (lit "BADVALUE", TFloat);
  (lit "BADINT", TInt);
  (lit "MP", TFloat);
  (lit "EV", TFloat);
  (lit "MEV", TFloat);
  (lit "GEV", TFloat);
  (lit "Q", TFloat);
  (lit "C", TFloat);
  (lit "MZERO", TFloat);
  (lit "AU", TFloat);
  (lit "RSUN", TFloat);
  (lit "RSAU", TFloat);
  (lit "TAU", TFloat);
  (lit "DAY", TFloat);
  (lit "MHD_DENSITY_NORM", TFloat);
  (lit "MHD_B_NORM", TFloat);
  (lit "OM", TFloat);
  (lit "FCONVERT", TFloat);
  (lit "VOLT", TFloat);
  (lit "THRESH", TFloat);
  (lit "MAS_TIME_NORM", TFloat);
  (lit "MAS_LENGTH_NORM", TFloat);
  (lit "MAS_RHO_NORM", TFloat);
  (lit "MAS_TIME_CONVERT", TFloat);
  (lit "MAS_V_CONVERT", TFloat);
  (lit "MAS_RHO_CONVERT", TFloat);
  (lit "MAS_B_CONVERT", TFloat);
  (lit "MAX_STRING_SIZE", TInt);
  (lit "MHD_DEFAULT", TInt);
  (lit "MHD_ENLIL", TInt);
  (lit "MHD_LFMH", TInt);
  (lit "MHD_BATSRUS", TInt);
  (lit "MHD_MAS", TInt);
  (lit "NUM_MPI_BOUNDARY_FLDS", TInt)].
(** The names, aliases and units: runtime.py 983-1507; [None] for an attribute that is missing or [None]. *)
Definition metadata : list (str * (option (list str) * option str)) := [
  (lit "minimum_energy", (Some ([lit "Emin"; lit "minimum energy"]), Some (lit "MeV")));
  (lit "reference energy", (Some ([lit "energy0"]), Some (lit "MeV")));
  (lit "reference radius", (Some ([lit "r0"]), Some (lit "au")));
  (lit "boundaryFunctAmplitude", (Some ([lit "J0"]), Some (lit "1 / (cm^2 * s * sr * (MeV/nuc))")));
  (lit "boundaryFunctXi", (Some ([lit "xi"]), Some (lit "1")));
  (lit "boundaryFunctBeta", (Some ([lit "beta"]), Some (lit "1")));
  (lit "boundaryFunctGamma", (Some ([lit "gamma"]), Some (lit "1")));
  (lit "boundaryFunctEcutoff", (Some ([lit "E0"]), Some (lit "MeV")));
  (lit "kperxkpar", (Some ([lit "kper_kpar"; lit "kper/kpar"; lit "kper / kpar"]), Some (lit "1")));
  (lit "lamo", (Some ([lit "lam0"; lit "lambda0"]), Some (lit "au")));
  (lit "mfpRadialPower", (Some ([lit "mfp_radial_power"]), Some (lit "1")));
  (lit "rigidityPower", (Some ([lit "rigidity_power"]), Some (lit "1")));
  (lit "flowMag", (Some ([]), Some (lit "km/s")));
  (lit "mhdDensityAu", (Some ([]), Some (lit "cm^-3")));
  (lit "mhdBAu", (Some ([]), Some (lit "G")));
  (lit "omegaSun", (Some ([]), Some (lit "rad * cm / (au * s)")));
  (lit "mass", (Some ([]), Some (lit "nucleon")));
  (lit "charge", (Some ([]), Some (lit "e")));
  (lit "minInjectionEnergy", (Some ([]), Some (lit "MeV")));
  (lit "maxInjectionEnergy", (Some ([]), Some (lit "MeV")));
  (lit "shockInjectionFactor", (Some ([]), Some (lit "1")));
  (lit "shockDetectPercent", (Some ([]), Some (lit "1")));
  (lit "rScale", (Some ([]), Some (lit "au")));
  (lit "simStartTime", (Some ([]), Some (lit "day")));
  (lit "simStopTime", (Some ([]), Some (lit "day")));
  (lit "eMin", (Some ([]), Some (lit "MeV/nuc")));
  (lit "eMax", (Some ([]), Some (lit "MeV/nuc")));
  (lit "numObservers", (Some ([]), Some (lit "1")));
  (lit "obsR", (Some ([]), Some (lit "au")));
  (lit "obsTheta", (Some ([]), Some (lit "rad")));
  (lit "obsPhi", (Some ([]), Some (lit "rad")));
  (lit "idw_p", (Some ([]), Some (lit "1")));
  (lit "idealShockSharpness", (Some ([]), Some (lit "1")));
  (lit "idealShockScaleLength", (Some ([]), Some (lit "au")));
  (lit "idealShockJump", (Some ([]), Some (lit "1")));
  (lit "idealShockSpeed", (Some ([]), Some (lit "km/s")));
  (lit "idealShockInitTime", (Some ([]), Some (lit "day")));
  (lit "idealShockTheta", (Some ([]), Some (lit "rad")));
  (lit "idealShockPhi", (Some ([]), Some (lit "rad")));
  (lit "idealShockWidth", (Some ([]), Some (lit "rad")));
  (lit "tDel", (Some ([]), Some (lit "day")));
  (lit "gammaElow", (Some ([]), Some (lit "1")));
  (lit "gammaEhigh", (Some ([]), Some (lit "1")));
  (lit "masInitTimeStep", (Some ([]), Some (lit "day")));
  (lit "masStartTime", (Some ([]), Some (lit "day")));
  (lit "epEquilibriumCalcDuration", (Some ([]), Some (lit "day")));
  (lit "preEruptionDuration", (Some ([]), Some (lit "day")));
  (lit "pointObserverOutput", (Some ([]), None));
  (lit "enlilCouple", (Some ([]), None));
  (lit "outputFloat", (Some ([]), None));
  (lit "numRowsPerFace", (Some ([]), None));
  (lit "numColumnsPerFace", (Some ([]), None));
  (lit "numNodesPerStream", (Some ([]), None));
  (lit "numEnergySteps", (Some ([]), None));
  (lit "numMuSteps", (Some ([]), None));
  (lit "useDrift", (Some ([]), None));
  (lit "useShellDiffusion", (Some ([]), None));
  (lit "unifiedOutput", (Some ([]), None));
  (lit "streamFluxOutput", (Some ([]), None));
  (lit "epremDomain", (Some ([]), None));
  (lit "dumpFreq", (Some ([]), None));
  (lit "idealShock", (Some ([]), None));
  (lit "shockSolver", (Some ([]), None));
  (lit "fluxLimiter", (Some ([]), None));
  (lit "numEpSteps", (Some ([]), None));
  (lit "useParallelDiffusion", (Some ([]), None));
  (lit "useAdiabaticChange", (Some ([]), None));
  (lit "useAdiabaticFocus", (Some ([]), None));
  (lit "numSpecies", (Some ([]), None));
  (lit "boundaryFunctionInitDomain", (Some ([]), None));
  (lit "checkSeedPopulation", (Some ([]), None));
  (lit "subTimeCouple", (Some ([]), None));
  (lit "FailModeDump", (Some ([]), None));
  (lit "masCouple", (Some ([]), None));
  (lit "masDirectory", (Some ([]), None));
  (lit "masInitFromOuterBoundary", (Some ([]), None));
  (lit "masRotateSolution", (Some ([]), None));
  (lit "useMasSteadyStateDt", (Some ([]), None));
  (lit "masDigits", (Some ([]), None));
  (lit "T", (None, None));
  (lit "F", (None, None));
  (lit "PI", (None, None));
  (lit "TWO_PI", (None, None));
  (lit "VERYSMALL", (None, None));
  (lit "BADVALUE", (None, None));
  (lit "BADINT", (None, None));
  (lit "MP", (None, Some (lit "g")));
  (lit "EV", (None, Some (lit "erg/eV")));
  (lit "MEV", (None, Some (lit "erg/MeV")));
  (lit "GEV", (None, Some (lit "erg/GeV")));
  (lit "Q", (None, Some (lit "statC")));
  (lit "C", (None, Some (lit "cm/s")));
  (lit "MZERO", (None, Some (lit "GeV")));
  (lit "AU", (None, Some (lit "cm")));
  (lit "RSUN", (None, Some (lit "cm")));
  (lit "RSAU", (None, Some (lit "1")));
  (lit "TAU", (None, Some (lit "s")));
  (lit "DAY", (None, Some (lit "day")));
  (lit "MHD_DENSITY_NORM", (None, Some (lit "1")));
  (lit "MHD_B_NORM", (None, Some (lit "1")));
  (lit "OM", (None, Some (lit "1")));
  (lit "FCONVERT", (None, Some (lit "1")));
  (lit "VOLT", (None, Some (lit "1")));
  (lit "THRESH", (None, Some (lit "1")));
  (lit "MAS_TIME_NORM", (None, Some (lit "1")));
  (lit "MAS_LENGTH_NORM", (None, Some (lit "1")));
  (lit "MAS_RHO_NORM", (None, Some (lit "1")));
  (lit "MAS_TIME_CONVERT", (None, Some (lit "1")));
  (lit "MAS_V_CONVERT", (None, Some (lit "1")));
  (lit "MAS_RHO_CONVERT", (None, Some (lit "1")));
  (lit "MAS_B_CONVERT", (None, Some (lit "1")));
  (lit "MAX_STRING_SIZE", (None, None));
  (lit "MHD_DEFAULT", (None, None));
  (lit "MHD_ENLIL", (None, None));
  (lit "MHD_LFMH", (None, None));
  (lit "MHD_BATSRUS", (None, None));
  (lit "MHD_MAS", (None, None));
  (lit "NUM_MPI_BOUNDARY_FLDS", (None, None))].
(** Values of the parameters for the analysis: runtime.py 983-999. *)
Definition local_values : list (str * rvalue) := [
  (lit "minimum_energy", RReal (Qc_of_Z 0));
  (lit "reference energy", RReal (Qc_of_Z 1));
  (lit "reference radius", RReal (Qc_of_Z 1))].
(** The names of observable quantities: reference.py 11-135. *)
Definition reference_keys : list key := [
  Many [lit "time"; lit "t"; lit "times"];
  Many [lit "shell"; lit "shells"];
  Many [lit "mu"; lit "mus"; lit "pitch angle"; lit "pitch-angle"; lit "pitch-angle cosine"; lit "pitch angles"; lit "pitch-angles"; lit "pitch-angle cosines"];
  Many [lit "mass"; lit "m"];
  Many [lit "charge"; lit "q"];
  Many [lit "energy"; lit "egrid"; lit "energies"; lit "E"];
  Many [lit "speed"; lit "vgrid"; lit "vparticle"];
  Many [lit "radius"; lit "R"; lit "r"];
  Many [lit "theta"; lit "T"];
  Many [lit "phi"; lit "P"];
  Many [lit "Br"; lit "br"];
  Many [lit "Bt"; lit "bt"; lit "Btheta"; lit "btheta"];
  Many [lit "Bp"; lit "bp"; lit "Bphi"; lit "bphi"];
  Many [lit "Vr"; lit "vr"];
  Many [lit "Vt"; lit "vt"; lit "Vtheta"; lit "vtheta"];
  Many [lit "Vp"; lit "vp"; lit "Vphi"; lit "vphi"];
  Many [lit "rho"; lit "Rho"];
  Many [lit "dist"; lit "Dist"; lit "f"];
  Many [lit "flux"; lit "Flux"; lit "J"; lit "J(E)"; lit "j"; lit "j(E)"];
  Many [lit "x"; lit "X"];
  Many [lit "y"; lit "Y"];
  Many [lit "z"; lit "Z"];
  Many [lit "B"; lit "b_mag"; lit "|B|"; lit "bmag"; lit "b mag"];
  Many [lit "V"; lit "v_mag"; lit "|V|"; lit "vmag"; lit "v mag"; lit "v"; lit "|v|"];
  Many [lit "BV"; lit "bv_mag"; lit "bv"; lit "|bv|"; lit "|BV|"];
  Many [lit "Vpara"; lit "v_para"; lit "vpara"];
  Many [lit "Vperp"; lit "v_perp"; lit "vperp"];
  Many [lit "flow_angle"; lit "flow angle"; lit "angle"];
  Many [lit "div_v"; lit "divV"; lit "divv"; lit "div V"; lit "div v"; lit "div(V)"; lit "div(v)"];
  Many [lit "density_ratio"; lit "density ratio"; lit "n2/n1"; lit "n_2/n_1"];
  Many [lit "rigidity"; lit "Rg"; lit "R_g"];
  Many [lit "mean_free_path"; lit "mean free path"; lit "mfp"];
  Many [lit "acceleration_rate"; lit "acceleration rate"];
  Many [lit "energy_density"; lit "energy density"];
  Many [lit "average_energy"; lit "average energy"];
  Many [lit "isotropic_distribution"; lit "isotropic distribution"; lit "isodist"];
  One (lit "fluence");
  Many [lit "integral_flux"; lit "integral flux"]].

(** * The interface *)

Section Package.
Context (F : flops) (mkset : list str -> list str).

(** runtime.py 850-852: the values of all parameters, of a [Runtime] without
    comment signs and with the package's sources, after those of the
    analysis. *)
Definition the_run (user : list (str * str)) : RuntimeModel.run := mkRun user parameters constants constant_types.
Definition all_values (fuel : nat) (user : list (str * str)) : res (list (str * rvalue)) :=
  do l <- mapM (fun k => do v <- runtime_getitem F (the_run user) fuel k; Ok (k, v)) (map fst parameters);
  Ok (d_update str_eqb local_values l).
(** runtime.py 1519, [ALIASES]: [keysfrom] (aliased.py 212-256) with the
    aliases in the metadata. *)
Definition metadata_keys : list group :=
  map (fun r : str * (option (list str) * option str) =>
         interior_key mkset (fun l : list str => l) (lit "aliases")
           (fst r, match fst (snd r) with Some l => [(lit "aliases", l)] | None => [] end)) metadata.
(** runtime.py 858, [reference.ALIASES.merge(...)] (core/reference.py 148). *)
Definition interface_groups : res groups :=
  groups_merge mkset (groups_init mkset reference_keys) (map AIter metadata_keys).
(** runtime.py 1521-1524, [_UNITS]. *)
Definition unit_of (k : str) : option str :=
  match d_get str_eqb metadata k with Some (_, u) => u | None => None end.
(** runtime.py 850-858: values and units under all names; the order of the
    keys is that of a set.  [None] for the path gives no user's file. *)
Definition open_package (fuel : nat) (contents : option str) : res (amap (rvalue * option str)) :=
  do user <- match contents with Some s => config_file [] s | None => Ok [] end;
  do values <- all_values fuel user;
  do base <- mapM (fun k => Ok (k, (match d_get str_eqb values k with Some v => v | None => RNone end, unit_of k)))
               (mkset (map fst local_values ++ map fst parameters));
  do gs <- interface_groups;
  Ok (mapping_with_groups mkset base gs).
(** runtime.py 862-868, [__getitem__]: the argument with this value and unit
    (operational.py 88-117); [None] for an argument that holds Python's
    [None].  Simplification: whole numbers are stored as real ones. *)
Definition given_of (v : rvalue) : option ParametersModel.given :=
  match v with
  | RReal q => Some (ParametersModel.One (ParametersModel.IReal q))
  | RStr s => Some (ParametersModel.One (ParametersModel.IText s))
  | RList l => Some (ParametersModel.Several (map ParametersModel.IReal l))
  | RNone => None
  end.
Definition package_item (m : amap (rvalue * option str)) (name : str) : res (option (ParametersModel.argument str)) :=
  match getitem m name with
  | Err _ => Err KeyError
  | Ok (v, u) => match given_of v with
                 | Some g => do a <- ParametersModel.argument_of g u; Ok (Some a)
                 | None => Ok None
                 end
  end.
(** runtime.py 875-877, [config]: the user's file ([user], read again, 857) is
    asked by the name itself; [get] (872-873) is [Mapping.get], which gives the
    default instead of a KeyError. *)
Definition package_config (m : amap (rvalue * option str)) (user : list (str * str)) (name : str)
    (default : option (ParametersModel.argument str)) : res (option (ParametersModel.argument str)) :=
  if d_has str_eqb user name
  then match package_item m name with Err KeyError => Ok default | r => r end
  else Ok default.
End Package.
