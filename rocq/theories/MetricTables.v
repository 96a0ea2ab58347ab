(** The literal tables of /repo/src/goats/core/metric.py.

    Generated from the text of the file: one entry per literal, in source
    order.  Numbers are the exact values of the written arithmetic (decimal
    literals are not rounded to binary64; the value of [numpy.pi] is the
    binary64 number itself).  Characters outside ASCII (micro, ohm) are their
    UTF-8 bytes.  Proof-free. *)

From Coq Require Import String Ascii List QArith Qcanon.
From Verif Require Import Py.
Import ListNotations.
Open Scope list_scope.

(** metric.py 961-966, [Prefix]; a name [None] is [None]. *)
Record prefix : Type := mkPrefix { p_symbol : str; p_name : option str; p_factor : Qc }.

(** metric.py 14-37, [_prefixes]. *)
Definition prefixes : list prefix := [
  mkPrefix (lit "Y") (Some (lit "yotta")) (Q2Qc (1000000000000000000000000#1));
  mkPrefix (lit "Z") (Some (lit "zetta")) (Q2Qc (1000000000000000000000#1));
  mkPrefix (lit "E") (Some (lit "exa")) (Q2Qc (1000000000000000000#1));
  mkPrefix (lit "P") (Some (lit "peta")) (Q2Qc (1000000000000000#1));
  mkPrefix (lit "T") (Some (lit "tera")) (Q2Qc (1000000000000#1));
  mkPrefix (lit "G") (Some (lit "giga")) (Q2Qc (1000000000#1));
  mkPrefix (lit "M") (Some (lit "mega")) (Q2Qc (1000000#1));
  mkPrefix (lit "k") (Some (lit "kilo")) (Q2Qc (1000#1));
  mkPrefix (lit "h") (Some (lit "hecto")) (Q2Qc (100#1));
  mkPrefix (lit "da") (Some (lit "deca")) (Q2Qc (10#1));
  mkPrefix (lit "") (Some (lit "")) (Q2Qc (1#1));
  mkPrefix (lit " ") None (Q2Qc (0#1));
  mkPrefix (lit "d") (Some (lit "deci")) (Q2Qc (1#10));
  mkPrefix (lit "c") (Some (lit "centi")) (Q2Qc (1#100));
  mkPrefix (lit "m") (Some (lit "milli")) (Q2Qc (1#1000));
  mkPrefix (lit "μ") (Some (lit "micro")) (Q2Qc (1#1000000));
  mkPrefix (lit "n") (Some (lit "nano")) (Q2Qc (1#1000000000));
  mkPrefix (lit "p") (Some (lit "pico")) (Q2Qc (1#1000000000000));
  mkPrefix (lit "f") (Some (lit "femto")) (Q2Qc (1#1000000000000000));
  mkPrefix (lit "a") (Some (lit "atto")) (Q2Qc (1#1000000000000000000));
  mkPrefix (lit "z") (Some (lit "zepto")) (Q2Qc (1#1000000000000000000000));
  mkPrefix (lit "y") (Some (lit "yocto")) (Q2Qc (1#1000000000000000000000000))].

(** metric.py 969-974, [BaseUnit]. *)
Record base_unit : Type := mkBase { b_symbol : str; b_name : str; b_quantity : str }.

(** metric.py 50-286, [_units]. *)
Definition units : list base_unit := [
  mkBase (lit "m") (lit "meter") (lit "length");
  mkBase (lit "au") (lit "astronomical unit") (lit "length");
  mkBase (lit "g") (lit "gram") (lit "mass");
  mkBase (lit "nuc") (lit "nucleon") (lit "mass number");
  mkBase (lit "amu") (lit "atomic mass unit") (lit "mass number");
  mkBase (lit "s") (lit "second") (lit "time");
  mkBase (lit "min") (lit "minute") (lit "time");
  mkBase (lit "h") (lit "hour") (lit "time");
  mkBase (lit "d") (lit "day") (lit "time");
  mkBase (lit "A") (lit "ampere") (lit "current");
  mkBase (lit "K") (lit "kelvin") (lit "temperature");
  mkBase (lit "mol") (lit "mole") (lit "amount");
  mkBase (lit "#") (lit "count") (lit "number");
  mkBase (lit "cd") (lit "candela") (lit "luminous intensity");
  mkBase (lit "rad") (lit "radian") (lit "plane angle");
  mkBase (lit "deg") (lit "degree") (lit "plane angle");
  mkBase (lit "sr") (lit "steradian") (lit "solid angle");
  mkBase (lit "Hz") (lit "hertz") (lit "frequency");
  mkBase (lit "J") (lit "joule") (lit "energy");
  mkBase (lit "erg") (lit "erg") (lit "energy");
  mkBase (lit "eV") (lit "electronvolt") (lit "energy");
  mkBase (lit "N") (lit "newton") (lit "force");
  mkBase (lit "dyn") (lit "dyne") (lit "force");
  mkBase (lit "Pa") (lit "pascal") (lit "pressure");
  mkBase (lit "W") (lit "watt") (lit "power");
  mkBase (lit "C") (lit "coulomb") (lit "charge");
  mkBase (lit "statC") (lit "statcoulomb") (lit "charge");
  mkBase (lit "statA") (lit "statampere") (lit "current");
  mkBase (lit "statV") (lit "statvolt") (lit "potential");
  mkBase (lit "e") (lit "fundamental charge") (lit "charge");
  mkBase (lit "V") (lit "volt") (lit "potential");
  mkBase (lit "Ω") (lit "ohm") (lit "resistance");
  mkBase (lit "S") (lit "seimens") (lit "conductance");
  mkBase (lit "F") (lit "farad") (lit "capacitance");
  mkBase (lit "Wb") (lit "weber") (lit "magnetic flux");
  mkBase (lit "Mx") (lit "maxwell") (lit "magnetic flux");
  mkBase (lit "Oe") (lit "Oersted") (lit "magnetic intensity");
  mkBase (lit "H") (lit "henry") (lit "inductance");
  mkBase (lit "T") (lit "tesla") (lit "induction");
  mkBase (lit "G") (lit "gauss") (lit "induction");
  mkBase (lit "lm") (lit "lumen") (lit "luminous flux");
  mkBase (lit "lx") (lit "lux") (lit "illuminance");
  mkBase (lit "Bq") (lit "becquerel") (lit "radioactivity");
  mkBase (lit "Ci") (lit "Curie") (lit "radioactivity");
  mkBase (lit "Gy") (lit "gray") (lit "dosage");
  mkBase (lit "P") (lit "poise") (lit "viscosity");
  mkBase (lit "1") (lit "unitless") (lit "identity")].

(** metric.py 309-320, [_BASE_QUANTITIES]: dimension and name. *)
Definition base_quantities : list (str * str) := [
  (lit "1", lit "identity");
  (lit "N", lit "amount");
  (lit "I", lit "current");
  (lit "L", lit "length");
  (lit "J", lit "luminous intensity");
  (lit "M", lit "mass");
  (lit "H", lit "temperature");
  (lit "T", lit "time")].

(** An entry of [_QUANTITIES]: explicit dimensions and units, each for (mks,
    cgs), or a defining expression. *)
Inductive qdef : Type :=
| QDict (dims us : str * str)
| QStr (s : str).

(** metric.py 322-719, [_QUANTITIES]. *)
Definition quantities : list (str * qdef) := [
  (lit "acceleration", QStr (lit "velocity / time"));
  (lit "amount", QDict (lit "N", lit "N") (lit "mol", lit "mol"));
  (lit "area", QStr (lit "length^2"));
  (lit "capacitance", QDict (lit "(T^2 * I)^2 / (M * L^2)", lit "L") (lit "F", lit "cm"));
  (lit "charge", QDict (lit "I * T", lit "(M^1/2 * L^3/2) / T") (lit "C", lit "statC"));
  (lit "charge density", QStr (lit "charge / volume"));
  (lit "conductance", QDict (lit "(T^3 * I^2) / (M * L^2)", lit "L / T") (lit "S", lit "cm / s"));
  (lit "conductivity", QStr (lit "conductance / length"));
  (lit "current", QDict (lit "I", lit "(M^1/2 * L^3/2) / T^2") (lit "A", lit "statA"));
  (lit "current density", QStr (lit "current / area"));
  (lit "displacement", QDict (lit "I * T / L^2", lit "M^1/2 / (L^1/2 * T)") (lit "C / m^2", lit "statC / m^2"));
  (lit "dosage", QDict (lit "L^2 / T^2", lit "L^2 / T^2") (lit "Gy", lit "erg / g"));
  (lit "electric charge", QStr (lit "charge"));
  (lit "electric field", QStr (lit "potential / length"));
  (lit "electromotance", QStr (lit "potential"));
  (lit "energy", QDict (lit "(M * L^2) / T^2", lit "(M * L^2) / T^2") (lit "J", lit "erg"));
  (lit "energy density", QStr (lit "energy / volume"));
  (lit "fluence", QStr (lit "particle fluence"));
  (lit "flux", QStr (lit "particle flux"));
  (lit "force", QDict (lit "(M * L) / T^2", lit "(M * L) / T^2") (lit "N", lit "dyn"));
  (lit "frequency", QDict (lit "1 / T", lit "1 / T") (lit "Hz", lit "Hz"));
  (lit "identity", QDict (lit "1", lit "1") (lit "1", lit "1"));
  (lit "illumunance", QDict (lit "J / L^2", lit "J / L^2") (lit "cd * sr / m^2", lit "cd * sr / cm^2"));
  (lit "impedance", QDict (lit "(M * L^2) / (T^3 * I)", lit "T / L") (lit "ohm", lit "s / cm"));
  (lit "inductance", QDict (lit "(M * L^2) / (I * T)^2", lit "T^2 / L") (lit "H", lit "s^2 / cm"));
  (lit "induction", QStr (lit "magnetic induction"));
  (lit "integral flux", QStr (lit "flux * energy"));
  (lit "length", QDict (lit "L", lit "L") (lit "m", lit "cm"));
  (lit "luminous flux", QDict (lit "J", lit "J") (lit "cd * sr", lit "cd * sr"));
  (lit "luminous intensity", QDict (lit "J", lit "J") (lit "cd", lit "cd"));
  (lit "magnetic field", QStr (lit "magnetic induction"));
  (lit "magnetic flux", QDict (lit "(M * L^2) / (T^2 * I)", lit "(M^1/2 * L^3/2) / T") (lit "Wb", lit "Mx"));
  (lit "magnetic induction", QDict (lit "M / (T^2 * I)", lit "M^1/2 / (L^1/2 * T)") (lit "T", lit "G"));
  (lit "magnetic intensity", QDict (lit "I / L", lit "M^1/2 / (L^1/2 * T)") (lit "A / m", lit "Oe"));
  (lit "magnetic moment", QDict (lit "I * L^2", lit "(M^1/2 * L^5/2) / T") (lit "A * m^2", lit "Oe * cm^3"));
  (lit "magnetization", QStr (lit "magnetic intensity"));
  (lit "magnetomotance", QStr (lit "current"));
  (lit "mass", QDict (lit "M", lit "M") (lit "kg", lit "g"));
  (lit "mass density", QStr (lit "mass / volume"));
  (lit "mass number", QStr (lit "number"));
  (lit "momentum", QDict (lit "(M * L) / T", lit "(M * L) / T") (lit "kg * m / s", lit "g * cm / s"));
  (lit "momentum density", QStr (lit "momentum / volume"));
  (lit "number", QStr (lit "identity"));
  (lit "number density", QStr (lit "1 / volume"));
  (lit "particle distribution", QStr (lit "1 / (length * velocity)^3"));
  (lit "particle fluence", QStr (lit "number / (area * solid_angle * energy / mass_number)"));
  (lit "particle flux", QStr (lit "fluence / time"));
  (lit "permeability", QDict (lit "(M * L) / (I * T)^2", lit "1") (lit "H / m", lit "1"));
  (lit "permittivity", QDict (lit "T^4 * I / (M * L^3)", lit "1") (lit "F / m", lit "1"));
  (lit "plane angle", QDict (lit "1", lit "1") (lit "rad", lit "rad"));
  (lit "polarization", QStr (lit "charge / area"));
  (lit "potential", QDict (lit "(M * L^2) / (T^3 * I)", lit "(M^1/2 * L^1/2) / T") (lit "V", lit "statV"));
  (lit "power", QDict (lit "M * L^2 / T^3", lit "M * L^2 / T^3") (lit "W", lit "erg / s"));
  (lit "power density", QStr (lit "power / volume"));
  (lit "pressure", QDict (lit "M / (L * T^2)", lit "M / (L * T^2)") (lit "Pa", lit "dyn / cm^2"));
  (lit "radioactivity", QDict (lit "1 / T", lit "1 / T") (lit "Bq", lit "Ci"));
  (lit "ratio", QStr (lit "identity"));
  (lit "reluctance", QDict (lit "(I * T)^2 / (M * L^2)", lit "1 / L") (lit "A / Wb", lit "1 / cm"));
  (lit "resistance", QStr (lit "impedance"));
  (lit "resistivity", QStr (lit "resistance * length"));
  (lit "temperature", QDict (lit "H", lit "H") (lit "K", lit "K"));
  (lit "thermal conductivity", QStr (lit "power / (length * temperature)"));
  (lit "time", QDict (lit "T", lit "T") (lit "s", lit "s"));
  (lit "solid angle", QDict (lit "1", lit "1") (lit "sr", lit "sr"));
  (lit "speed", QStr (lit "velocity"));
  (lit "vector potential", QDict (lit "(M * L) / (T^2 * I)", lit "(M^1/2 * L^1/2) / T") (lit "Wb / m", lit "G * cm"));
  (lit "velocity", QStr (lit "length / time"));
  (lit "viscosity", QDict (lit "M / (L * T)", lit "M / (L * T)") (lit "kg / (m * s)", lit "P"));
  (lit "volume", QStr (lit "length^3"));
  (lit "vorticity", QStr (lit "frequency"));
  (lit "wavenumber", QStr (lit "1 / length"));
  (lit "work", QStr (lit "energy"))].

(** metric.py 729-765, [_CONVERSIONS]. *)
Definition declared : list ((str * str) * option Qc) := [
  ((lit "F", lit "cm"), Some (Q2Qc (22468879468420441#25000)));
  ((lit "C", lit "statC"), Some (Q2Qc (299792458000#1)));
  ((lit "e", lit "C"), Some (Q2Qc (8011#50000000000000000000000)));
  ((lit "S", lit "cm / s"), Some (Q2Qc (44937758936840882#5)));
  ((lit "A", lit "statA"), Some (Q2Qc (299792458000#1)));
  ((lit "Gy", lit "erg / g"), Some (Q2Qc (10000#1)));
  ((lit "J", lit "erg"), Some (Q2Qc (10000000#1)));
  ((lit "eV", lit "J"), Some (Q2Qc (8011#50000000000000000000000)));
  ((lit "N", lit "dyn"), Some (Q2Qc (100000#1)));
  ((lit "ohm", lit "s / cm"), Some (Q2Qc (5#44937758936840882)));
  ((lit "H", lit "s^2 / cm"), Some (Q2Qc (5#44937758936840882)));
  ((lit "au", lit "m"), Some (Q2Qc (149597870700#1)));
  ((lit "Wb", lit "Mx"), Some (Q2Qc (100000000#1)));
  ((lit "T", lit "G"), Some (Q2Qc (10000#1)));
  ((lit "A / m", lit "Oe"), Some (Q2Qc (176855943800711#14073748835532800)));
  ((lit "nuc", lit "kg"), Some (Q2Qc (3321#2000000000000000000000000000000)));
  ((lit "amu", lit "kg"), Some (Q2Qc (3321#2000000000000000000000000000000)));
  ((lit "H / m", lit "1"), Some (Q2Qc (69084353047152734375#8796093022208)));
  ((lit "F / m", lit "1"), Some (Q2Qc (15543979435609365234375#137438953472)));
  ((lit "rad", lit "deg"), Some (Q2Qc (10133099161583616#176855943800711)));
  ((lit "V", lit "statV"), Some (Q2Qc (5000#149896229)));
  ((lit "W", lit "erg / s"), Some (Q2Qc (10000000#1)));
  ((lit "Pa", lit "dyn / cm^2"), Some (Q2Qc (10#1)));
  ((lit "Bq", lit "Ci"), Some (Q2Qc (1#37000000000)));
  ((lit "A / Wb", lit "1 / cm"), Some (Q2Qc (176855943800711#14073748835532800000000)));
  ((lit "s", lit "min"), Some (Q2Qc (1#60)));
  ((lit "s", lit "h"), Some (Q2Qc (1#3600)));
  ((lit "s", lit "d"), Some (Q2Qc (1#86400)));
  ((lit "Wb / m", lit "G * cm"), Some (Q2Qc (1000000#1)));
  ((lit "kg / (m * s)", lit "P"), Some (Q2Qc (10#1)))].
