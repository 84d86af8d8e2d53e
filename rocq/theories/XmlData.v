(** * The shipped database pyudunits2/udunits2_combined.xml as data.
    Generated by tools/gen_xml.py; do not edit. *)
From Verif Require Import PyBase Xml.
Open Scope string_scope.

Definition db_part0 : list tag := [
  mkTag (u "prefix") (u "") [
    mkTag (u "value") (u "1e24") [];
    mkTag (u "name") (u "yotta") [];
    mkTag (u "symbol") (u "Y") []];
  mkTag (u "prefix") (u "") [
    mkTag (u "value") (u "1e21") [];
    mkTag (u "name") (u "zetta") [];
    mkTag (u "symbol") (u "Z") []];
  mkTag (u "prefix") (u "") [
    mkTag (u "value") (u "1e18") [];
    mkTag (u "name") (u "exa") [];
    mkTag (u "symbol") (u "E") []];
  mkTag (u "prefix") (u "") [
    mkTag (u "value") (u "1e15") [];
    mkTag (u "name") (u "peta") [];
    mkTag (u "symbol") (u "P") []];
  mkTag (u "prefix") (u "") [
    mkTag (u "value") (u "1e12") [];
    mkTag (u "name") (u "tera") [];
    mkTag (u "symbol") (u "T") []];
  mkTag (u "prefix") (u "") [
    mkTag (u "value") (u "1e9") [];
    mkTag (u "name") (u "giga") [];
    mkTag (u "symbol") (u "G") []];
  mkTag (u "prefix") (u "") [
    mkTag (u "value") (u "1e6") [];
    mkTag (u "name") (u "mega") [];
    mkTag (u "symbol") (u "M") []];
  mkTag (u "prefix") (u "") [
    mkTag (u "value") (u "1e3") [];
    mkTag (u "name") (u "kilo") [];
    mkTag (u "symbol") (u "k") []];
  mkTag (u "prefix") (u "") [
    mkTag (u "value") (u "100") [];
    mkTag (u "name") (u "hecto") [];
    mkTag (u "symbol") (u "h") []];
  mkTag (u "prefix") (u "") [
    mkTag (u "value") (u "10") [];
    mkTag (u "name") (u "deka") [];
    mkTag (u "symbol") (u "da") []];
  mkTag (u "prefix") (u "") [
    mkTag (u "value") (u ".1") [];
    mkTag (u "name") (u "deci") [];
    mkTag (u "symbol") (u "d") []];
  mkTag (u "prefix") (u "") [
    mkTag (u "value") (u ".01") [];
    mkTag (u "name") (u "centi") [];
    mkTag (u "symbol") (u "c") []];
  mkTag (u "prefix") (u "") [
    mkTag (u "value") (u "1e-3") [];
    mkTag (u "name") (u "milli") [];
    mkTag (u "symbol") (u "m") []];
  mkTag (u "prefix") (u "") [
    mkTag (u "value") (u "1e-6") [];
    mkTag (u "name") (u "micro") [];
    mkTag (u "symbol") (u "µ") [];
    mkTag (u "symbol") (u "μ") [];
    mkTag (u "symbol") (u "u") []];
  mkTag (u "prefix") (u "") [
    mkTag (u "value") (u "1e-9") [];
    mkTag (u "name") (u "nano") [];
    mkTag (u "symbol") (u "n") []];
  mkTag (u "prefix") (u "") [
    mkTag (u "value") (u "1e-12") [];
    mkTag (u "name") (u "pico") [];
    mkTag (u "symbol") (u "p") []];
  mkTag (u "prefix") (u "") [
    mkTag (u "value") (u "1e-15") [];
    mkTag (u "name") (u "femto") [];
    mkTag (u "symbol") (u "f") []];
  mkTag (u "prefix") (u "") [
    mkTag (u "value") (u "1e-18") [];
    mkTag (u "name") (u "atto") [];
    mkTag (u "symbol") (u "a") []];
  mkTag (u "prefix") (u "") [
    mkTag (u "value") (u "1e-21") [];
    mkTag (u "name") (u "zepto") [];
    mkTag (u "symbol") (u "z") []];
  mkTag (u "prefix") (u "") [
    mkTag (u "value") (u "1e-24") [];
    mkTag (u "name") (u "yocto") [];
    mkTag (u "symbol") (u "y") []];
  mkTag (u "unit") (u "") [
    mkTag (u "base") (u "") [];
    mkTag (u "name") (u "") [
      mkTag (u "singular") (u "meter") []];
    mkTag (u "symbol") (u "m") [];
    mkTag (u "aliases") (u "") [
      mkTag (u "name") (u "") [
        mkTag (u "singular") (u "metre") []]];
    mkTag (u "definition") (u "The meter is the length of the path travelled by light in vacuum during a time interval of 1/299 792 458 of a second.") []];
  mkTag (u "unit") (u "") [
    mkTag (u "base") (u "") [];
    mkTag (u "name") (u "") [
      mkTag (u "singular") (u "kilogram") []];
    mkTag (u "symbol") (u "kg") [];
    mkTag (u "definition") (u "The kilogram is the unit of mass; it is equal to the mass of the international prototype of the kilogram.") []];
  mkTag (u "unit") (u "") [
    mkTag (u "base") (u "") [];
    mkTag (u "name") (u "") [
      mkTag (u "singular") (u "second") []];
    mkTag (u "symbol") (u "s") [];
    mkTag (u "definition") (u "The second is the duration of 9 192 631 770 periods of the radiation corresponding to the transition between the two hyperfine levels of the ground state of the cesium 133 atom.") []];
  mkTag (u "unit") (u "") [
    mkTag (u "base") (u "") [];
    mkTag (u "name") (u "") [
      mkTag (u "singular") (u "ampere") []];
    mkTag (u "symbol") (u "A") [];
    mkTag (u "definition") (u "The ampere is that constant current which, if maintained in two straight parallel conductors of infinite length, of negligible circular cross-section, and placed 1 meter apart in vacuum, would produce between these conductors a force equal to 2e-7 newton per meter of length.") []];
  mkTag (u "unit") (u "") [
    mkTag (u "base") (u "") [];
    mkTag (u "name") (u "") [
      mkTag (u "singular") (u "kelvin") []];
    mkTag (u "symbol") (u "K") [];
    mkTag (u "definition") (u "The kelvin, unit of thermodynamic temperature, is the fraction 1/273.16 of the thermodynamic temperature of the triple point of water.") []];
  mkTag (u "unit") (u "") [
    mkTag (u "base") (u "") [];
    mkTag (u "name") (u "") [
      mkTag (u "singular") (u "mole") []];
    mkTag (u "symbol") (u "mol") [];
    mkTag (u "definition") (u "The mole is the amount of substance of a system which contains as many elementary entities as there are atoms in 0.012 kilogram of carbon 12. When the mole is used, the elementary entities must be specified and may be atoms, molecules, ions, electrons, other particles, or specified groups of such particles.") []];
  mkTag (u "unit") (u "") [
    mkTag (u "base") (u "") [];
    mkTag (u "name") (u "") [
      mkTag (u "singular") (u "candela") []];
    mkTag (u "symbol") (u "cd") [];
    mkTag (u "definition") (u "The candela is the luminous intensity, in a given direction, of a source that emits monochromatic radiation of frequency 540e12 hertz and that has a radiant intensity in that direction of 1/683 watt per steradian.") []];
  mkTag (u "unit") (u "") [
    mkTag (u "comment") (u "SI derived unit") [];
    mkTag (u "dimensionless") (u "") [];
    mkTag (u "name") (u "") [
      mkTag (u "singular") (u "radian") []];
    mkTag (u "symbol") (u "rad") [];
    mkTag (u "definition") (u "standard unit of angular measure, an angle that creates an arc in a circle equal in length to that circle's radius (roughly 57.3 degrees); as a ratio of two lengths, it has no dimension") []];
  mkTag (u "unit") (u "") [
    mkTag (u "comment") (u "SI derived unit") [];
    mkTag (u "def") (u "rad^2") [];
    mkTag (u "name") (u "") [
      mkTag (u "singular") (u "steradian") []];
    mkTag (u "symbol") (u "sr") [];
    mkTag (u "definition") (u "standard unit of solid angle measure, it is the solid angle which cuts out an area on a sphere that is the square of the sphere's radius; as a ratio of two areas, it has no dimension") []];
  mkTag (u "unit") (u "") [
    mkTag (u "comment") (u "SI derived unit") [];
    mkTag (u "def") (u "1/s") [];
    mkTag (u "name") (u "") [
      mkTag (u "singular") (u "hertz") []];
    mkTag (u "symbol") (u "Hz") [];
    mkTag (u "definition") (u "unit of frequency meaning one cycle per second") []];
  mkTag (u "unit") (u "") [
    mkTag (u "comment") (u "SI derived unit") [];
    mkTag (u "def") (u "1e-3 kg") [];
    mkTag (u "name") (u "") [
      mkTag (u "singular") (u "gram") []];
    mkTag (u "symbol") (u "g") [];
    mkTag (u "definition") (u "unit of mass equal to one thousandth of a kilogram") []];
  mkTag (u "unit") (u "") [
    mkTag (u "comment") (u "SI derived unit") [];
    mkTag (u "def") (u "m.kg/s^2") [];
    mkTag (u "name") (u "") [
      mkTag (u "singular") (u "newton") []];
    mkTag (u "symbol") (u "N") [];
    mkTag (u "definition") (u "unit of force; the amount needed to accelerate 1 kilogram of mass at the rate of 1 metre per second squared") []];
  mkTag (u "unit") (u "") [
    mkTag (u "comment") (u "SI derived unit") [];
    mkTag (u "def") (u "N/m^2") [];
    mkTag (u "name") (u "") [
      mkTag (u "singular") (u "pascal") []];
    mkTag (u "symbol") (u "Pa") [];
    mkTag (u "definition") (u "unit of pressure (force per unit area) equal to one newton per square meter") []];
  mkTag (u "unit") (u "") [
    mkTag (u "comment") (u "SI derived unit") [];
    mkTag (u "def") (u "N.m") [];
    mkTag (u "name") (u "") [
      mkTag (u "singular") (u "joule") []];
    mkTag (u "symbol") (u "J") [];
    mkTag (u "definition") (u "standard unit of work or energy, equal to the work done by a force of one newton acting along a distance of one meter") []];
  mkTag (u "unit") (u "") [
    mkTag (u "comment") (u "SI derived unit") [];
    mkTag (u "def") (u "J/s") [];
    mkTag (u "name") (u "") [
      mkTag (u "singular") (u "watt") []];
    mkTag (u "symbol") (u "W") [];
    mkTag (u "definition") (u "standard unit of power, equivalent to one joule per second, and equal to one ampere flowing across a potential difference of one volt") []];
  mkTag (u "unit") (u "") [
    mkTag (u "comment") (u "SI derived unit") [];
    mkTag (u "def") (u "s.A") [];
    mkTag (u "name") (u "") [
      mkTag (u "singular") (u "coulomb") []];
    mkTag (u "symbol") (u "C") [];
    mkTag (u "definition") (u "standard unit of electric charge, the quantity of electricity transported in one second by a current of one ampere") []];
  mkTag (u "unit") (u "") [
    mkTag (u "comment") (u "SI derived unit") [];
    mkTag (u "def") (u "W/A") [];
    mkTag (u "name") (u "") [
      mkTag (u "singular") (u "volt") []];
    mkTag (u "symbol") (u "V") [];
    mkTag (u "definition") (u "standard unit of electric potential difference (and electromotive force); the difference of potential between two points of a conductor carrying a constant current of one ampere and dissipating one watt of power") []];
  mkTag (u "unit") (u "") [
    mkTag (u "comment") (u "SI derived unit") [];
    mkTag (u "def") (u "C/V") [];
    mkTag (u "name") (u "") [
      mkTag (u "singular") (u "farad") []];
    mkTag (u "symbol") (u "F") [];
    mkTag (u "definition") (u "standard unit of capacitance; the amount which, when a capacitor is charged to a potential difference of one volt, carries a charge of one coulomb") []];
  mkTag (u "unit") (u "") [
    mkTag (u "comment") (u "SI derived unit") [];
    mkTag (u "def") (u "V/A") [];
    mkTag (u "name") (u "") [
      mkTag (u "singular") (u "ohm") []];
    mkTag (u "symbol") (u "Ω") [];
    mkTag (u "aliases") (u "") [
      mkTag (u "symbol") (u "Ω") []];
    mkTag (u "definition") (u "standard unit of electrical resistance; the resistance between two points of a conductor when a constant potential difference of 1.0 volt, applied to these points, produces in the conductor a current of 1.0 ampere") []];
  mkTag (u "unit") (u "") [
    mkTag (u "comment") (u "SI derived unit") [];
    mkTag (u "def") (u "A/V") [];
    mkTag (u "name") (u "") [
      mkTag (u "singular") (u "siemens") []];
    mkTag (u "symbol") (u "S") [];
    mkTag (u "definition") (u "unit of electric conductance; the reciprocal of one ohm") []]
]%list.

Definition db_part1 : list tag := [
  mkTag (u "unit") (u "") [
    mkTag (u "comment") (u "SI derived unit") [];
    mkTag (u "def") (u "V.s") [];
    mkTag (u "name") (u "") [
      mkTag (u "singular") (u "weber") []];
    mkTag (u "symbol") (u "Wb") [];
    mkTag (u "definition") (u "unit of magnetic flux (product of the average magnetic field times the perpendicular area that it penetrates), expressed as volt-seconds") []];
  mkTag (u "unit") (u "") [
    mkTag (u "comment") (u "SI derived unit") [];
    mkTag (u "def") (u "Wb/m^2") [];
    mkTag (u "name") (u "") [
      mkTag (u "singular") (u "tesla") []];
    mkTag (u "symbol") (u "T") [];
    mkTag (u "definition") (u "unit of flux density, equal to one weber per square meter") []];
  mkTag (u "unit") (u "") [
    mkTag (u "comment") (u "SI derived unit") [];
    mkTag (u "def") (u "Wb/A") [];
    mkTag (u "name") (u "") [
      mkTag (u "singular") (u "henry") []];
    mkTag (u "symbol") (u "H") [];
    mkTag (u "definition") (u "unit of inductance; where a circuit's current changes at a constant rate of 1 ampere per second, results in a generation of 1 V of potential difference") []];
  mkTag (u "unit") (u "") [
    mkTag (u "comment") (u "SI derived unit") [];
    mkTag (u "def") (u "K @ 273.15") [];
    mkTag (u "name") (u "") [
      mkTag (u "singular") (u "degree_Celsius") [];
      mkTag (u "plural") (u "degrees_Celsius") []];
    mkTag (u "symbol") (u "°C") [];
    mkTag (u "definition") (u "unit (and scale) of temperature, with same magnitude as the kelvin and a zero-point offset of 273.15") []];
  mkTag (u "unit") (u "") [
    mkTag (u "comment") (u "SI derived unit") [];
    mkTag (u "def") (u "cd.sr") [];
    mkTag (u "name") (u "") [
      mkTag (u "singular") (u "lumen") []];
    mkTag (u "symbol") (u "lm") [];
    mkTag (u "definition") ([117%N; 110%N; 105%N; 116%N; 32%N; 111%N; 102%N; 32%N; 108%N; 117%N; 109%N; 105%N; 110%N; 111%N; 117%N; 115%N; 32%N; 102%N; 108%N; 117%N; 120%N; 44%N; 32%N; 97%N; 32%N; 109%N; 101%N; 97%N; 115%N; 117%N; 114%N; 101%N; 32%N; 111%N; 102%N; 32%N; 116%N; 104%N; 101%N; 32%N; 116%N; 111%N; 116%N; 97%N; 108%N; 32%N; 34%N; 97%N; 109%N; 111%N; 117%N; 110%N; 116%N; 34%N; 32%N; 111%N; 102%N; 32%N; 118%N; 105%N; 115%N; 105%N; 98%N; 108%N; 101%N; 32%N; 108%N; 105%N; 103%N; 104%N; 116%N; 32%N; 101%N; 109%N; 105%N; 116%N; 116%N; 101%N; 100%N; 32%N; 98%N; 121%N; 32%N; 97%N; 32%N; 115%N; 111%N; 117%N; 114%N; 99%N; 101%N; 59%N; 32%N; 111%N; 110%N; 101%N; 32%N; 99%N; 97%N; 110%N; 100%N; 101%N; 108%N; 97%N; 45%N; 115%N; 116%N; 101%N; 114%N; 97%N; 100%N; 105%N; 97%N; 110%N]) []];
  mkTag (u "unit") (u "") [
    mkTag (u "comment") (u "SI derived unit") [];
    mkTag (u "def") (u "lm/m^2") [];
    mkTag (u "name") (u "") [
      mkTag (u "singular") (u "lux") []];
    mkTag (u "symbol") (u "lx") [];
    mkTag (u "definition") (u "unit of illuminance and luminous emittance, measuring luminous flux per unit area, and used as a measure of intensity of light; equal to one lumen per square meter") []];
  mkTag (u "unit") (u "") [
    mkTag (u "comment") (u "SI derived unit") [];
    mkTag (u "def") (u "mol/s") [];
    mkTag (u "name") (u "") [
      mkTag (u "singular") (u "katal") []];
    mkTag (u "symbol") (u "kat") [];
    mkTag (u "definition") (u "unit of catalytic activity (property of a catalyst, such as an enzyme); expresses the ability to break 1 mole of bonds per second under specified conditions") []];
  mkTag (u "unit") (u "") [
    mkTag (u "comment") (u "SI derived unit with special names/symbols admitted for reasons of safeguarding human health") [];
    mkTag (u "def") (u "1/s") [];
    mkTag (u "aliases") (u "") [
      mkTag (u "name") (u "") [
        mkTag (u "singular") (u "becquerel") []];
      mkTag (u "symbol") (u "Bq") []];
    mkTag (u "definition") (u "unit of radioactivity; the activity of a quantity of material in which one nucleus decays per second (hence, equivalent to one unit per second)") []];
  mkTag (u "unit") (u "") [
    mkTag (u "comment") (u "SI derived unit with special names/symbols admitted for reasons of safeguarding human health") [];
    mkTag (u "def") (u "J/kg") [];
    mkTag (u "name") (u "") [
      mkTag (u "singular") (u "gray") []];
    mkTag (u "symbol") (u "Gy") [];
    mkTag (u "definition") (u "unit of ionizing radiation, a measure of the absorbed dose of radiation; absorption of one joule of radiation energy by one kilogram of matter") []];
  mkTag (u "unit") (u "") [
    mkTag (u "comment") (u "SI derived unit with special names/symbols admitted for reasons of safeguarding human health") [];
    mkTag (u "def") (u "J/kg") [];
    mkTag (u "aliases") (u "") [
      mkTag (u "name") (u "") [
        mkTag (u "singular") (u "sievert") []];
      mkTag (u "symbol") (u "Sv") []];
    mkTag (u "definition") (u "unit of ionizing radiation dose, measuring the health effect of low levels of ionizing radiation on the human body") []];
  mkTag (u "unit") (u "") [
    mkTag (u "def") (u "60 s") [];
    mkTag (u "name") (u "") [
      mkTag (u "singular") (u "minute") []];
    mkTag (u "symbol") (u "min") [];
    mkTag (u "definition") (u "period of time equal to 60 seconds") []];
  mkTag (u "unit") (u "") [
    mkTag (u "def") (u "60 min") [];
    mkTag (u "name") (u "") [
      mkTag (u "singular") (u "hour") []];
    mkTag (u "symbol") (u "h") [];
    mkTag (u "aliases") (u "") [
      mkTag (u "symbol") (u "hr") []];
    mkTag (u "definition") (u "period of time equal to 60 minutes") []];
  mkTag (u "unit") (u "") [
    mkTag (u "def") (u "24 h") [];
    mkTag (u "name") (u "") [
      mkTag (u "singular") (u "day") []];
    mkTag (u "symbol") (u "d") [];
    mkTag (u "definition") (u "period of time equal to 24 hours") []];
  mkTag (u "unit") (u "") [
    mkTag (u "comment") ([84%N; 104%N; 105%N; 115%N; 32%N; 34%N; 117%N; 110%N; 105%N; 116%N; 34%N; 32%N; 105%N; 115%N; 32%N; 117%N; 115%N; 101%N; 102%N; 117%N; 108%N; 32%N; 105%N; 110%N; 32%N; 116%N; 104%N; 101%N; 32%N; 100%N; 101%N; 102%N; 105%N; 110%N; 105%N; 116%N; 105%N; 111%N; 110%N; 32%N; 111%N; 102%N; 32%N; 115%N; 117%N; 98%N; 115%N; 101%N; 113%N; 117%N; 101%N; 110%N; 116%N; 32%N; 117%N; 110%N; 105%N; 116%N; 115%N; 46%N]) [];
    mkTag (u "def") (u "3.141592653589793238462643383279") [];
    mkTag (u "aliases") (u "") [
      mkTag (u "name") (u "") [
        mkTag (u "singular") (u "pi") [];
        mkTag (u "noplural") (u "") []];
      mkTag (u "symbol") (u "π") []];
    mkTag (u "definition") (u "mathematical constant equal to the ratio of a circle's circumference to its diameter") []];
  mkTag (u "unit") (u "") [
    mkTag (u "def") (u "(pi/180) rad") [];
    mkTag (u "name") (u "") [
      mkTag (u "singular") (u "arc_degree") []];
    mkTag (u "symbol") (u "°") [];
    mkTag (u "aliases") (u "") [
      mkTag (u "name") (u "") [
        mkTag (u "singular") (u "angular_degree") []];
      mkTag (u "name") (u "") [
        mkTag (u "singular") (u "degree") []];
      mkTag (u "name") (u "") [
        mkTag (u "singular") (u "arcdeg") []]];
    mkTag (u "definition") (u "measurement of a plane angle representing 1/360 of a full rotation") []];
  mkTag (u "unit") (u "") [
    mkTag (u "def") (u "°/60") [];
    mkTag (u "name") (u "") [
      mkTag (u "singular") (u "arc_minute") []];
    mkTag (u "symbol") (u "'") [];
    mkTag (u "symbol") (u "′") [];
    mkTag (u "aliases") (u "") [
      mkTag (u "name") (u "") [
        mkTag (u "singular") (u "angular_minute") []];
      mkTag (u "name") (u "") [
        mkTag (u "singular") (u "arcminute") []];
      mkTag (u "name") (u "") [
        mkTag (u "singular") (u "arcmin") []]];
    mkTag (u "definition") (u "measurement of a plane angle equal to 1/60 arc degree") []];
  mkTag (u "unit") (u "") [
    mkTag (u "def") (u "'/60") [];
    mkTag (u "name") (u "") [
      mkTag (u "singular") (u "arc_second") []];
    mkTag (u "symbol") ([34%N]) [];
    mkTag (u "symbol") (u "″") [];
    mkTag (u "aliases") (u "") [
      mkTag (u "name") (u "") [
        mkTag (u "singular") (u "angular_second") []];
      mkTag (u "name") (u "") [
        mkTag (u "singular") (u "arcsecond") []];
      mkTag (u "name") (u "") [
        mkTag (u "singular") (u "arcsec") []]];
    mkTag (u "definition") (u "measurement of a plane angle equal to 1/60 arc minute") []];
  mkTag (u "unit") (u "") [
    mkTag (u "comment") ([84%N; 104%N; 101%N; 32%N; 100%N; 101%N; 102%N; 105%N; 110%N; 105%N; 116%N; 105%N; 111%N; 110%N; 32%N; 105%N; 115%N; 32%N; 101%N; 120%N; 97%N; 99%N; 116%N; 46%N; 32%N; 32%N; 70%N; 114%N; 111%N; 109%N; 32%N; 49%N; 57%N; 48%N; 49%N; 32%N; 116%N; 111%N; 32%N; 49%N; 57%N; 54%N; 52%N; 44%N; 32%N; 104%N; 111%N; 119%N; 101%N; 118%N; 101%N; 114%N; 44%N; 32%N; 49%N; 32%N; 108%N; 105%N; 116%N; 101%N; 114%N; 32%N; 119%N; 97%N; 115%N; 32%N; 49%N; 46%N; 48%N; 48%N; 48%N; 48%N; 50%N; 56%N; 32%N; 100%N; 109%N; 94%N; 51%N; 32%N; 40%N; 118%N; 111%N; 108%N; 117%N; 109%N; 101%N; 32%N; 111%N; 102%N; 32%N; 49%N; 32%N; 107%N; 103%N; 32%N; 111%N; 102%N; 32%N; 119%N; 97%N; 116%N; 101%N; 114%N; 32%N; 117%N; 110%N; 100%N; 101%N; 114%N; 32%N; 115%N; 116%N; 97%N; 110%N; 100%N; 97%N; 114%N; 100%N; 32%N; 99%N; 111%N; 110%N; 100%N; 105%N; 116%N; 105%N; 111%N; 110%N; 115%N; 41%N; 46%N]) [];
    mkTag (u "def") (u "dm^3") [];
    mkTag (u "name") (u "") [
      mkTag (u "singular") (u "liter") []];
    mkTag (u "symbol") (u "L") [];
    mkTag (u "aliases") (u "") [
      mkTag (u "name") (u "") [
        mkTag (u "singular") (u "litre") []];
      mkTag (u "symbol") (u "l") []];
    mkTag (u "definition") (u "unit of capacity equal to 1000 cubic centimeters") []];
  mkTag (u "unit") (u "") [
    mkTag (u "def") (u "1000 kg") [];
    mkTag (u "name") (u "") [
      mkTag (u "singular") (u "metric_ton") []];
    mkTag (u "symbol") (u "t") [];
    mkTag (u "aliases") (u "") [
      mkTag (u "name") (u "") [
        mkTag (u "singular") (u "tonne") []]];
    mkTag (u "definition") (u "unit of weight equal to 1000 kilograms") []];
  mkTag (u "unit") (u "") [
    mkTag (u "comment") (u "Unit's value is obtained experimentally") [];
    mkTag (u "def") (u "1.60217733e-19 J") [];
    mkTag (u "name") (u "") [
      mkTag (u "singular") (u "electronvolt") []];
    mkTag (u "symbol") (u "eV") [];
    mkTag (u "aliases") (u "") [
      mkTag (u "name") (u "") [
        mkTag (u "singular") (u "electron_volt") []]];
    mkTag (u "definition") (u "unit of energy equal to the work accelerating an electron through a potential difference of one volt") []];
  mkTag (u "unit") (u "") [
    mkTag (u "comment") (u "Unit's value is obtained experimentally") [];
    mkTag (u "def") (u "1.6605402e-27 kg") [];
    mkTag (u "name") (u "") [
      mkTag (u "singular") (u "unified_atomic_mass_unit") []];
    mkTag (u "symbol") (u "u") [];
    mkTag (u "aliases") (u "") [
      mkTag (u "name") (u "") [
        mkTag (u "singular") (u "atomic_mass_unit") []];
      mkTag (u "name") (u "") [
        mkTag (u "singular") (u "atomicmassunit") []];
      mkTag (u "name") (u "") [
        mkTag (u "singular") (u "amu") [];
        mkTag (u "noplural") (u "") []]];
    mkTag (u "definition") (u "standard unit for indicating mass on an atomic or molecular scale; is approximately the mass of one nucleon (either a single proton or neutron), and equivalent to 1 g/mol") []];
  mkTag (u "unit") (u "") [
    mkTag (u "comment") (u "According to resolution by the International Astronomical Union (IAU) in 2012") [];
    mkTag (u "def") (u "1.49597870700e11 m") [];
    mkTag (u "aliases") (u "") [
      mkTag (u "name") (u "") [
        mkTag (u "singular") (u "astronomical_unit") []];
      mkTag (u "symbol") (u "au") []];
    mkTag (u "definition") (u "Exact definition according to 2012 resolution by the International Astronomical Union (IAU). Ostensibly equal to the mean distance from the center of the earth to the center of the sun.") []];
  mkTag (u "unit") (u "") [
    mkTag (u "comment") (u "Pre-2012 resolution by the IAU") [];
    mkTag (u "def") (u "1.495979e11 m") [];
    mkTag (u "aliases") (u "") [
      mkTag (u "name") (u "") [
        mkTag (u "singular") (u "astronomical_unit_BIPM_2006") []];
      mkTag (u "symbol") (u "ua") []];
    mkTag (u "definition") (u "unit of measurement equal to 149.6 million kilometers, the mean distance from the center of the earth to the center of the sun according to the International Bureau of Weights and Measures (BIPM) in 2006") []];
  mkTag (u "unit") (u "") [
    mkTag (u "comment") (u "Unit is temporarily accepted for use with the SI.") [];
    mkTag (u "def") (u "1852 m") [];
    mkTag (u "aliases") (u "") [
      mkTag (u "name") (u "") [
        mkTag (u "singular") (u "nautical_mile") []]];
    mkTag (u "definition") (u "unit of distance at sea, set at 1852 meters (approximately one minute of arc measured along any meridian)") []];
  mkTag (u "unit") (u "") [
    mkTag (u "comment") (u "Unit is temporarily accepted for use with the SI.") [];
    mkTag (u "def") (u "nautical_mile/hour") [];
    mkTag (u "aliases") (u "") [
      mkTag (u "name") (u "") [
        mkTag (u "singular") (u "international_knot") []];
      mkTag (u "name") (u "") [
        mkTag (u "singular") (u "knot_international") []];
      mkTag (u "name") (u "") [
        mkTag (u "singular") (u "knot") []]];
    mkTag (u "definition") (u "derived unit of speed at sea") []];
  mkTag (u "unit") (u "") [
    mkTag (u "comment") (u "Unit is temporarily accepted for use with the SI.") [];
    mkTag (u "def") (u "1e-10 m") [];
    mkTag (u "aliases") (u "") [
      mkTag (u "name") (u "") [
        mkTag (u "singular") (u "angstrom") []];
      mkTag (u "name") (u "") [
        mkTag (u "singular") (u "ångström") []];
      mkTag (u "symbol") (u "Å") [];
      mkTag (u "symbol") (u "Å") []];
    mkTag (u "definition") (u "unit of length equal to one hundred-millionth of a centimeter (1 meter/10**10)") []];
  mkTag (u "unit") (u "") [
    mkTag (u "comment") (u "Unit is temporarily accepted for use with the SI.") [];
    mkTag (u "def") (u "dam^2") [];
    mkTag (u "aliases") (u "") [
      mkTag (u "name") (u "") [
        mkTag (u "singular") (u "are") []];
      mkTag (u "symbol") (u "a") []];
    mkTag (u "definition") (u "unit of area equal to 100 square meters") []];
  mkTag (u "unit") (u "") [
    mkTag (u "comment") (u "Unit is temporarily accepted for use with the SI.") [];
    mkTag (u "def") (u "100 are") [];
    mkTag (u "aliases") (u "") [
      mkTag (u "name") (u "") [
        mkTag (u "singular") (u "hectare") []]];
    mkTag (u "definition") (u "unit of area equal to 100 are ('hectoare'), or 10000 square meters") []];
  mkTag (u "unit") (u "") [
    mkTag (u "comment") (u "Unit is temporarily accepted for use with the SI.") [];
    mkTag (u "def") (u "100 fm^2") [];
    mkTag (u "aliases") (u "") [
      mkTag (u "name") (u "") [
        mkTag (u "singular") (u "barn") []];
      mkTag (u "symbol") (u "b") []];
    mkTag (u "definition") (u "unit of area, approximately the cross-sectional area of a uranium nucleus (10e-28 square meters)") []];
  mkTag (u "unit") (u "") [
    mkTag (u "comment") (u "Unit is temporarily accepted for use with the SI.") [];
    mkTag (u "def") (u "1000 hPa") [];
    mkTag (u "aliases") (u "") [
      mkTag (u "name") (u "") [
        mkTag (u "singular") (u "bar") []]];
    mkTag (u "definition") (u "unit of pressure equal to 100000 Pascals, or about 0.987 atmospheres of pressure") []];
  mkTag (u "unit") (u "") [
    mkTag (u "comment") (u "Unit is temporarily accepted for use with the SI.") [];
    mkTag (u "def") (u "cm/s^2") [];
    mkTag (u "aliases") (u "") [
      mkTag (u "name") (u "") [
        mkTag (u "singular") (u "gal") []]];
    mkTag (u "definition") (u "unit of acceleration equal to 1 cm per second squared") []];
  mkTag (u "unit") (u "") [
    mkTag (u "comment") (u "Unit is temporarily accepted for use with the SI.") [];
    mkTag (u "def") (u "3.7e10 Bq") [];
    mkTag (u "aliases") (u "") [
      mkTag (u "name") (u "") [
        mkTag (u "singular") (u "curie") []];
      mkTag (u "symbol") (u "Ci") []];
    mkTag (u "definition") (u "unit of radioactivity corresponding to 3.7 * 10e10 disintegrations per second") []];
  mkTag (u "unit") (u "") [
    mkTag (u "comment") (u "Unit is temporarily accepted for use with the SI.") [];
    mkTag (u "def") (u "2.58e-4 C/kg") [];
    mkTag (u "aliases") (u "") [
      mkTag (u "name") (u "") [
        mkTag (u "singular") (u "roentgen") []];
      mkTag (u "symbol") (u "R") []];
    mkTag (u "definition") (u "unit of ionizing radiation, the amount producing one electrostatic unit of positive or negative ionic charge in one cubic centimeter of air under standard conditions; rarely used") []];
  mkTag (u "unit") (u "") [
    mkTag (u "comment") (u "Unit is temporarily accepted for use with the SI.") [];
    mkTag (u "def") (u "cSv") [];
    mkTag (u "aliases") (u "") [
      mkTag (u "name") (u "") [
        mkTag (u "singular") (u "rem") []]];
    mkTag (u "definition") (u "unit of radiation dosage applied to humans; equal to one hundredth of a sievert") []];
  mkTag (u "unit") (u "") [
    mkTag (u "comment") (u "Synonym for SI unit") [];
    mkTag (u "def") (u "s") [];
    mkTag (u "aliases") (u "") [
      mkTag (u "name") (u "") [
        mkTag (u "singular") (u "sec") []]];
    mkTag (u "definition") (u "unit of time, synonym for second") []];
  mkTag (u "unit") (u "") [
    mkTag (u "comment") (u "Synonym for SI unit") [];
    mkTag (u "def") (u "A") [];
    mkTag (u "aliases") (u "") [
      mkTag (u "name") (u "") [
        mkTag (u "singular") (u "amp") []]];
    mkTag (u "definition") (u "unit of electric current, synonym for ampere") []];
  mkTag (u "unit") (u "") [
    mkTag (u "comment") (u "Synonym for SI unit") [];
    mkTag (u "def") (u "K") [];
    mkTag (u "aliases") (u "") [
      mkTag (u "symbol") (u "°K") [];
      mkTag (u "name") (u "") [
        mkTag (u "singular") (u "degree_kelvin") [];
        mkTag (u "plural") (u "degrees_kelvin") []];
      mkTag (u "name") (u "") [
        mkTag (u "singular") (u "degree_K") [];
        mkTag (u "plural") (u "degrees_K") []];
      mkTag (u "name") (u "") [
        mkTag (u "singular") (u "degreeK") [];
        mkTag (u "plural") (u "degreesK") []];
      mkTag (u "name") (u "") [
        mkTag (u "singular") (u "deg_K") [];
        mkTag (u "plural") (u "degs_K") []];
      mkTag (u "name") (u "") [
        mkTag (u "singular") (u "degK") [];
        mkTag (u "plural") (u "degsK") []]];
    mkTag (u "definition") (u "unit of temperature, synonym for kelvin") []];
  mkTag (u "unit") (u "") [
    mkTag (u "comment") (u "Synonym for SI unit") [];
    mkTag (u "def") (u "cd") [];
    mkTag (u "aliases") (u "") [
      mkTag (u "name") (u "") [
        mkTag (u "singular") (u "candle") []]];
    mkTag (u "definition") (u "unit of luminous intensity, synonym for candela") []];
  mkTag (u "unit") (u "") [
    mkTag (u "comment") (u "Synonym for SI unit") [];
    mkTag (u "def") (u "mole") [];
    mkTag (u "aliases") (u "") [
      mkTag (u "name") (u "") [
        mkTag (u "singular") (u "einstein") []]];
    mkTag (u "definition") (u "unit of chemical mass, synonym for mole") []];
  mkTag (u "unit") (u "") [
    mkTag (u "comment") (u "Synonym for SI unit") [];
    mkTag (u "def") (u "Hz") [];
    mkTag (u "aliases") (u "") [
      mkTag (u "name") (u "") [
        mkTag (u "singular") (u "baud") []];
      mkTag (u "symbol") (u "Bd") [];
      mkTag (u "symbol") (u "bps") []];
    mkTag (u "definition") (u "unit of frequency, synonym for hertz") []]
]%list.

Definition db_part2 : list tag := [
  mkTag (u "unit") (u "") [
    mkTag (u "comment") (u "Synonym for SI unit") [];
    mkTag (u "def") (u "degree_Celsius") [];
    mkTag (u "aliases") (u "") [
      mkTag (u "symbol") (u "℃") [];
      mkTag (u "name") (u "") [
        mkTag (u "singular") (u "celsius") []];
      mkTag (u "name") (u "") [
        mkTag (u "singular") (u "degree_C") [];
        mkTag (u "plural") (u "degrees_C") []];
      mkTag (u "name") (u "") [
        mkTag (u "singular") (u "degreeC") [];
        mkTag (u "plural") (u "degreesC") []];
      mkTag (u "name") (u "") [
        mkTag (u "singular") (u "deg_C") [];
        mkTag (u "plural") (u "degs_C") []];
      mkTag (u "name") (u "") [
        mkTag (u "singular") (u "degC") [];
        mkTag (u "plural") (u "degsC") []]];
    mkTag (u "definition") (u "unit of temperature, synonym for 'K @ 273.15' (degree_Celsius)") []];
  mkTag (u "unit") (u "") [
    mkTag (u "comment") (u "Synonym for SI unit") [];
    mkTag (u "def") (u "knot") [];
    mkTag (u "aliases") (u "") [
      mkTag (u "symbol") (u "kt") [];
      mkTag (u "symbol") (u "kts") []];
    mkTag (u "definition") (u "unit of speed, synonym for nautical_mile/hour") []];
  mkTag (u "unit") (u "") [
    mkTag (u "comment") (u "Constant; value is +-30e15") [];
    mkTag (u "def") (u "6.02214179e23/mol") [];
    mkTag (u "aliases") (u "") [
      mkTag (u "name") (u "") [
        mkTag (u "singular") (u "avogadro_constant") []];
      mkTag (u "noplural") (u "") []];
    mkTag (u "definition") (u "number of constituent particles (usually atoms or molecules) per mole of a given substance") []];
  mkTag (u "unit") (u "") [
    mkTag (u "comment") (u "Constant") [];
    mkTag (u "def") (u "0.01") [];
    mkTag (u "aliases") (u "") [
      mkTag (u "name") (u "") [
        mkTag (u "singular") (u "percent") []];
      mkTag (u "noplural") (u "") [];
      mkTag (u "symbol") (u "%") []];
    mkTag (u "definition") (u "number of parts per hundred") []];
  mkTag (u "unit") (u "") [
    mkTag (u "comment") (u "Constant") [];
    mkTag (u "def") (u "1") [];
    mkTag (u "aliases") (u "") [
      mkTag (u "symbol") (u "ppv") []];
    mkTag (u "definition") (u "parts per volume") []];
  mkTag (u "unit") (u "") [
    mkTag (u "comment") (u "Constant") [];
    mkTag (u "def") (u "1e-6") [];
    mkTag (u "aliases") (u "") [
      mkTag (u "symbol") (u "ppm") [];
      mkTag (u "symbol") (u "ppmv") []];
    mkTag (u "definition") (u "parts per million") []];
  mkTag (u "unit") (u "") [
    mkTag (u "comment") (u "Constant") [];
    mkTag (u "def") (u "1e-9") [];
    mkTag (u "aliases") (u "") [
      mkTag (u "symbol") (u "ppb") [];
      mkTag (u "symbol") (u "ppbv") []];
    mkTag (u "definition") (u "parts per billion") []];
  mkTag (u "unit") (u "") [
    mkTag (u "comment") (u "Constant") [];
    mkTag (u "def") (u "1e-12") [];
    mkTag (u "aliases") (u "") [
      mkTag (u "symbol") (u "ppt") [];
      mkTag (u "symbol") (u "pptv") []];
    mkTag (u "definition") (u "parts per trillion") []];
  mkTag (u "unit") (u "") [
    mkTag (u "comment") (u "Constant") [];
    mkTag (u "def") (u "1e-15") [];
    mkTag (u "aliases") (u "") [
      mkTag (u "symbol") (u "ppq") [];
      mkTag (u "symbol") (u "ppqv") []];
    mkTag (u "definition") (u "parts per quadrillion") []];
  mkTag (u "unit") (u "") [
    mkTag (u "def") (u "0.9 arc_degree") [];
    mkTag (u "aliases") (u "") [
      mkTag (u "name") (u "") [
        mkTag (u "singular") (u "grade") []]];
    mkTag (u "definition") (u "1/100 of a right angle (90 degrees)") []];
  mkTag (u "unit") (u "") [
    mkTag (u "def") (u "2 pi rad") [];
    mkTag (u "aliases") (u "") [
      mkTag (u "name") (u "") [
        mkTag (u "singular") (u "circle") []];
      mkTag (u "name") (u "") [
        mkTag (u "singular") (u "cycle") []];
      mkTag (u "name") (u "") [
        mkTag (u "singular") (u "turn") []];
      mkTag (u "name") (u "") [
        mkTag (u "singular") (u "revolution") []];
      mkTag (u "name") (u "") [
        mkTag (u "singular") (u "rotation") []]];
    mkTag (u "definition") (u "unit of angle in a plane signifying a full 360-degree circle") []];
  mkTag (u "unit") (u "") [
    mkTag (u "def") (u "arc_degree") [];
    mkTag (u "aliases") (u "") [
      mkTag (u "name") (u "") [
        mkTag (u "singular") (u "degree_north") [];
        mkTag (u "plural") (u "degrees_north") []];
      mkTag (u "name") (u "") [
        mkTag (u "singular") (u "degree_N") [];
        mkTag (u "plural") (u "degrees_N") []];
      mkTag (u "name") (u "") [
        mkTag (u "singular") (u "degreeN") [];
        mkTag (u "plural") (u "degreesN") []];
      mkTag (u "name") (u "") [
        mkTag (u "singular") (u "degree_east") [];
        mkTag (u "plural") (u "degrees_east") []];
      mkTag (u "name") (u "") [
        mkTag (u "singular") (u "degree_E") [];
        mkTag (u "plural") (u "degrees_E") []];
      mkTag (u "name") (u "") [
        mkTag (u "singular") (u "degreeE") [];
        mkTag (u "plural") (u "degreesE") []];
      mkTag (u "name") (u "") [
        mkTag (u "singular") (u "degree_true") [];
        mkTag (u "plural") (u "degrees_true") []];
      mkTag (u "name") (u "") [
        mkTag (u "singular") (u "degree_T") [];
        mkTag (u "plural") (u "degrees_T") []];
      mkTag (u "name") (u "") [
        mkTag (u "singular") (u "degreeT") [];
        mkTag (u "plural") (u "degreesT") []]];
    mkTag (u "definition") (u "unit of angle on a sphere") []];
  mkTag (u "unit") (u "") [
    mkTag (u "def") (u "-1 degree_east") [];
    mkTag (u "aliases") (u "") [
      mkTag (u "name") (u "") [
        mkTag (u "singular") (u "degree_west") [];
        mkTag (u "plural") (u "degrees_west") []];
      mkTag (u "name") (u "") [
        mkTag (u "singular") (u "degree_W") [];
        mkTag (u "plural") (u "degrees_W") []];
      mkTag (u "name") (u "") [
        mkTag (u "singular") (u "degreeW") [];
        mkTag (u "plural") (u "degreesW") []]];
    mkTag (u "definition") (u "unit of angle on a sphere (units for negative direction)") []];
  mkTag (u "unit") (u "") [
    mkTag (u "def") (u "2.916667e-2 kg") [];
    mkTag (u "aliases") (u "") [
      mkTag (u "name") (u "") [
        mkTag (u "singular") (u "assay_ton") []]];
    mkTag (u "definition") (u "reference unit of mass for a body of ore; roughly equal to 29167 milligrams") []];
  mkTag (u "unit") (u "") [
    mkTag (u "def") (u "2.834952e-2 kg") [];
    mkTag (u "aliases") (u "") [
      mkTag (u "name") (u "") [
        mkTag (u "singular") (u "avoirdupois_ounce") []]];
    mkTag (u "definition") (u "unit of mass equal to 1/16 avoirdupois pound, commonly used in the United States (16 oz = 1 pound = 7000 grains)") []];
  mkTag (u "unit") (u "") [
    mkTag (u "def") (u "4.5359237e-1 kg") [];
    mkTag (u "aliases") (u "") [
      mkTag (u "name") (u "") [
        mkTag (u "singular") (u "avoirdupois_pound") []];
      mkTag (u "name") (u "") [
        mkTag (u "singular") (u "pound") []];
      mkTag (u "symbol") (u "lb") []];
    mkTag (u "definition") (u "unit of mass in avoirdupois system of weights (a system commonly used in United States)") []];
  mkTag (u "unit") (u "") [
    mkTag (u "def") (u "2e-4 kg") [];
    mkTag (u "aliases") (u "") [
      mkTag (u "name") (u "") [
        mkTag (u "singular") (u "carat") []]];
    mkTag (u "definition") (u "unit of mass equal to 0.2 gram (defined 1907)") []];
  mkTag (u "unit") (u "") [
    mkTag (u "def") (u "6.479891e-5 kg") [];
    mkTag (u "aliases") (u "") [
      mkTag (u "name") (u "") [
        mkTag (u "singular") (u "grain") []];
      mkTag (u "symbol") (u "gr") []];
    mkTag (u "definition") (u "unit of mass equal to 1/7000 pound") []];
  mkTag (u "unit") (u "") [
    mkTag (u "def") (u "5.080235e1 kg") [];
    mkTag (u "aliases") (u "") [
      mkTag (u "name") (u "") [
        mkTag (u "singular") (u "long_hundredweight") []]];
    mkTag (u "definition") (u "unit of mass; a British hundredweight, which is 8 stone * 14 pounds/stone") []];
  mkTag (u "unit") (u "") [
    mkTag (u "def") (u "1.555174e-3 kg") [];
    mkTag (u "aliases") (u "") [
      mkTag (u "name") (u "") [
        mkTag (u "singular") (u "pennyweight") []]];
    mkTag (u "definition") (u "unit of mass; based on historical US troy weight system (is 1/20 troy ounce)") []];
  mkTag (u "unit") (u "") [
    mkTag (u "def") (u "4.535924e1 kg") [];
    mkTag (u "aliases") (u "") [
      mkTag (u "name") (u "") [
        mkTag (u "singular") (u "short_hundredweight") []]];
    mkTag (u "definition") (u "unit of mass, a US hundredweight, which is 100 pounds") []];
  mkTag (u "unit") (u "") [
    mkTag (u "def") (u "14.59390 kg") [];
    mkTag (u "aliases") (u "") [
      mkTag (u "name") (u "") [
        mkTag (u "singular") (u "slug") []]];
    mkTag (u "definition") (u "unit of mass associated with Imperial units; a mass that accelerates by 1 ft/s2 when a force of one pound-force (lbF) is exerted on it") []];
  mkTag (u "unit") (u "") [
    mkTag (u "def") (u "3.110348e-2 kg") [];
    mkTag (u "aliases") (u "") [
      mkTag (u "name") (u "") [
        mkTag (u "singular") (u "troy_ounce") []];
      mkTag (u "name") (u "") [
        mkTag (u "singular") (u "apothecary_ounce") []]];
    mkTag (u "definition") (u "unit of mass; based on historical US troy weight system (is 1/12 troy pound)") []];
  mkTag (u "unit") (u "") [
    mkTag (u "def") (u "3.732417e-1 kg") [];
    mkTag (u "aliases") (u "") [
      mkTag (u "name") (u "") [
        mkTag (u "singular") (u "troy_pound") []];
      mkTag (u "name") (u "") [
        mkTag (u "singular") (u "apothecary_pound") []]];
    mkTag (u "definition") (u "unit of mass; based on historical US troy weight system (is 5760 grain)") []];
  mkTag (u "unit") (u "") [
    mkTag (u "def") (u "20 grain") [];
    mkTag (u "aliases") (u "") [
      mkTag (u "name") (u "") [
        mkTag (u "singular") (u "scruple") []]];
    mkTag (u "definition") (u "unit of mass in apothecaries' weight system (is 1/3 apdram)") []];
  mkTag (u "unit") (u "") [
    mkTag (u "def") (u "60 grain") [];
    mkTag (u "aliases") (u "") [
      mkTag (u "name") (u "") [
        mkTag (u "singular") (u "apdram") []]];
    mkTag (u "definition") (u "unit of mass in apothecaries' weight system (is 1/8 apounce)") []];
  mkTag (u "unit") (u "") [
    mkTag (u "comment") (u "exact") [];
    mkTag (u "def") (u "avoirdupois_ounce/16") [];
    mkTag (u "aliases") (u "") [
      mkTag (u "name") (u "") [
        mkTag (u "singular") (u "dram") []];
      mkTag (u "symbol") (u "dr") []];
    mkTag (u "definition") (u "unit of mass in the avoirdupois system (the system commonly used in the United States)") []];
  mkTag (u "unit") (u "") [
    mkTag (u "def") (u "480 grain") [];
    mkTag (u "aliases") (u "") [
      mkTag (u "name") (u "") [
        mkTag (u "singular") (u "apounce") []]];
    mkTag (u "definition") (u "unit of mass in apothecaries' weight system (is 1/16 appound)") []];
  mkTag (u "unit") (u "") [
    mkTag (u "def") (u "5760 grain") [];
    mkTag (u "aliases") (u "") [
      mkTag (u "name") (u "") [
        mkTag (u "singular") (u "appound") []]];
    mkTag (u "definition") (u "unit of mass in apothecaries' weight system (is same as a troy pound)") []];
  mkTag (u "unit") (u "") [
    mkTag (u "def") (u "94 pound") [];
    mkTag (u "aliases") (u "") [
      mkTag (u "name") (u "") [
        mkTag (u "singular") (u "bag") []]];
    mkTag (u "definition") (u "unit of mass, for a traditional bag of portland cement") []];
  mkTag (u "unit") (u "") [
    mkTag (u "def") (u "2000 pound") [];
    mkTag (u "aliases") (u "") [
      mkTag (u "name") (u "") [
        mkTag (u "singular") (u "short_ton") []];
      mkTag (u "name") (u "") [
        mkTag (u "singular") (u "ton") []]];
    mkTag (u "definition") (u "unit of mass based on US weight system") []];
  mkTag (u "unit") (u "") [
    mkTag (u "def") (u "2240 pound") [];
    mkTag (u "aliases") (u "") [
      mkTag (u "name") (u "") [
        mkTag (u "singular") (u "long_ton") []]];
    mkTag (u "definition") (u "unit of mass based on British imperial weight system") []];
  mkTag (u "unit") (u "") [
    mkTag (u "def") (u "1e-15 m") [];
    mkTag (u "aliases") (u "") [
      mkTag (u "name") (u "") [
        mkTag (u "singular") (u "fermi") []]];
    mkTag (u "definition") (u "unit of length equal to 10e-15 meters, a typical length-scale of nuclear physics") []];
  mkTag (u "unit") (u "") [
    mkTag (u "def") (u "9.46073e15 m") [];
    mkTag (u "aliases") (u "") [
      mkTag (u "name") (u "") [
        mkTag (u "singular") (u "light_year") []]];
    mkTag (u "definition") (u "unit of length equal to the distance traversed by light in one mean solar year (365.2422 days), a typical length-scale of astronomy") []];
  mkTag (u "unit") (u "") [
    mkTag (u "def") (u "1e-6 m") [];
    mkTag (u "aliases") (u "") [
      mkTag (u "name") (u "") [
        mkTag (u "singular") (u "micron") []]];
    mkTag (u "definition") (u "unit of length, a typical length-scale of technology and science fields") []];
  mkTag (u "unit") (u "") [
    mkTag (u "def") (u "2.54e-5 m") [];
    mkTag (u "aliases") (u "") [
      mkTag (u "name") (u "") [
        mkTag (u "singular") (u "mil") []]];
    mkTag (u "definition") (u "unit of length equal to 0.001 inch, a typical length-scale for measuring wire diameters") []];
  mkTag (u "unit") (u "") [
    mkTag (u "def") (u "3.085678e16 m") [];
    mkTag (u "aliases") (u "") [
      mkTag (u "name") (u "") [
        mkTag (u "singular") (u "parsec") []]];
    mkTag (u "definition") (u "unit of length corresponding to the distance at which the mean radius of the earth's orbit subtends an angle of one second of arc, a typical length-scale of astronomy") []];
  mkTag (u "unit") (u "") [
    mkTag (u "def") (u "3.514598e-4 m") [];
    mkTag (u "aliases") (u "") [
      mkTag (u "name") (u "") [
        mkTag (u "singular") (u "printers_point") []]];
    mkTag (u "definition") (u "unit of length equal to 1/72.27 inch, the original (standardized 1886) unit for measuring font size and other small items on a printed page (see also big_point)") []];
  mkTag (u "unit") (u "") [
    mkTag (u "def") (u "2.011684e1 m") [];
    mkTag (u "aliases") (u "") [
      mkTag (u "name") (u "") [
        mkTag (u "singular") (u "chain") []]];
    mkTag (u "definition") (u "unit of length equal to 66 feet (4 poles), or 1/10 furlong, a typical (historical) scale of land surveying") []];
  mkTag (u "unit") (u "") [
    mkTag (u "def") (u "12 printers_point") [];
    mkTag (u "aliases") (u "") [
      mkTag (u "name") (u "") [
        mkTag (u "singular") (u "printers_pica") []];
      mkTag (u "name") (u "") [
        mkTag (u "singular") (u "pica") []]];
    mkTag (u "definition") (u "unit of length equal to 1/6 inch (12 printers points)") []]
]%list.

Definition db_part3 : list tag := [
  mkTag (u "unit") (u "") [
    mkTag (u "def") (u "nautical_mile") [];
    mkTag (u "aliases") (u "") [
      mkTag (u "name") (u "") [
        mkTag (u "singular") (u "nmile") []]];
    mkTag (u "definition") (u "unit of length in the US Customary System, equal to 6,076 feet; typically used for air and sea navigation") []];
  mkTag (u "unit") (u "") [
    mkTag (u "def") (u "(1200/3937) m") [];
    mkTag (u "aliases") (u "") [
      mkTag (u "name") (u "") [
        mkTag (u "singular") (u "US_survey_foot") [];
        mkTag (u "plural") (u "US_survey_feet") []]];
    mkTag (u "definition") (u "unit of length used for earlier survey data in some countries, slightly different than the current international foot") []];
  mkTag (u "unit") (u "") [
    mkTag (u "def") (u "3 US_survey_feet") [];
    mkTag (u "aliases") (u "") [
      mkTag (u "name") (u "") [
        mkTag (u "singular") (u "US_survey_yard") []]];
    mkTag (u "definition") (u "unit of length used in earlier survey data in some countries, slightly different than the current international yard") []];
  mkTag (u "unit") (u "") [
    mkTag (u "def") (u "5280 US_survey_feet") [];
    mkTag (u "aliases") (u "") [
      mkTag (u "name") (u "") [
        mkTag (u "singular") (u "US_survey_mile") []];
      mkTag (u "name") (u "") [
        mkTag (u "singular") (u "US_statute_mile") []]];
    mkTag (u "definition") (u "unit of length used for earlier survey data in some countries, slightly slightly different than the current international mile") []];
  mkTag (u "unit") (u "") [
    mkTag (u "def") (u "16.5 US_survey_feet") [];
    mkTag (u "aliases") (u "") [
      mkTag (u "name") (u "") [
        mkTag (u "singular") (u "rod") []];
      mkTag (u "name") (u "") [
        mkTag (u "singular") (u "pole") []];
      mkTag (u "name") (u "") [
        mkTag (u "singular") (u "perch") []]];
    mkTag (u "definition") (u "unit of length equal to one-fourth of a surveyor's chain") []];
  mkTag (u "unit") (u "") [
    mkTag (u "def") (u "660 US_survey_feet") [];
    mkTag (u "aliases") (u "") [
      mkTag (u "name") (u "") [
        mkTag (u "singular") (u "furlong") []]];
    mkTag (u "definition") (u "unit of length equal to 1/8 mile or 10 chains") []];
  mkTag (u "unit") (u "") [
    mkTag (u "def") (u "6 US_survey_feet") [];
    mkTag (u "aliases") (u "") [
      mkTag (u "name") (u "") [
        mkTag (u "singular") (u "fathom") []]];
    mkTag (u "definition") (u "unit of length equal to 6 feet in the imperial and US customary systems, typically used for measuring depth of water") []];
  mkTag (u "unit") (u "") [
    mkTag (u "def") (u "2.54 cm") [];
    mkTag (u "aliases") (u "") [
      mkTag (u "name") (u "") [
        mkTag (u "singular") (u "international_inch") []];
      mkTag (u "name") (u "") [
        mkTag (u "singular") (u "inch") []];
      mkTag (u "symbol") (u "in") []];
    mkTag (u "definition") (u "unit of length equal to 25.4 mm by definition, used in imperial and US customary systems") []];
  mkTag (u "unit") (u "") [
    mkTag (u "def") (u "12 international_inches") [];
    mkTag (u "aliases") (u "") [
      mkTag (u "name") (u "") [
        mkTag (u "singular") (u "international_foot") [];
        mkTag (u "plural") (u "international_feet") []];
      mkTag (u "name") (u "") [
        mkTag (u "singular") (u "foot") [];
        mkTag (u "plural") (u "feet") []];
      mkTag (u "symbol") (u "ft") []];
    mkTag (u "definition") (u "unit of length equal to 12 international inches, in the imperial and US customary systems; primarily used in the United States") []];
  mkTag (u "unit") (u "") [
    mkTag (u "def") (u "3 international_feet") [];
    mkTag (u "aliases") (u "") [
      mkTag (u "name") (u "") [
        mkTag (u "singular") (u "international_yard") []];
      mkTag (u "name") (u "") [
        mkTag (u "singular") (u "yard") []];
      mkTag (u "symbol") (u "yd") []];
    mkTag (u "definition") (u "unit of length equal to 3 international feet, in the imperial and US customary systems; primarily used in the United States") []];
  mkTag (u "unit") (u "") [
    mkTag (u "def") (u "5280 international_feet") [];
    mkTag (u "aliases") (u "") [
      mkTag (u "name") (u "") [
        mkTag (u "singular") (u "international_mile") []];
      mkTag (u "name") (u "") [
        mkTag (u "singular") (u "mile") []];
      mkTag (u "symbol") (u "mi") []];
    mkTag (u "definition") (u "unit of length equal to 5280 feet, equal to 12 international inches, in the imperial and US customary systems; primarily used in the United States and other smaller countries with ties to the US or United Kingdom") []];
  mkTag (u "unit") (u "") [
    mkTag (u "def") (u "inch/72") [];
    mkTag (u "aliases") (u "") [
      mkTag (u "name") (u "") [
        mkTag (u "singular") (u "big_point") []]];
    mkTag (u "definition") (u "unit of length equal to 1/72 inch, standardized unit in modern computer-based publishing for measuring font size and other small items on a printed page (contrast to printers_point)") []];
  mkTag (u "unit") (u "") [
    mkTag (u "def") (u "inch/3") [];
    mkTag (u "aliases") (u "") [
      mkTag (u "name") (u "") [
        mkTag (u "singular") (u "barleycorn") []]];
    mkTag (u "definition") (u "unit of length based in medieval laws of England and Wales, defining an inch as being 3 barleycorns long (length of a corn of barley); still the basis for current shoe sizes in Great Britain and Ireland") []];
  mkTag (u "unit") (u "") [
    mkTag (u "def") (u "191.835 foot") [];
    mkTag (u "aliases") (u "") [
      mkTag (u "name") (u "") [
        mkTag (u "singular") (u "arpentlin") []]];
    mkTag (u "definition") (u "unit of length in French regions; a linear arpent is of length 10 perch (10 rod)") []];
  mkTag (u "unit") (u "") [
    mkTag (u "comment") (u "exact") [];
    mkTag (u "def") (u "rotation/second") [];
    mkTag (u "aliases") (u "") [
      mkTag (u "name") (u "") [
        mkTag (u "singular") (u "rotation_per_second") [];
        mkTag (u "plural") (u "rotations_per_second") []];
      mkTag (u "symbol") (u "rps") [];
      mkTag (u "symbol") (u "cps") []];
    mkTag (u "definition") (u "unit of angular velocity") []];
  mkTag (u "unit") (u "") [
    mkTag (u "comment") (u "exact") [];
    mkTag (u "def") (u "rotation/minute") [];
    mkTag (u "aliases") (u "") [
      mkTag (u "symbol") (u "rpm") []];
    mkTag (u "definition") (u "unit of angular velocity measuring the angular distance covered by a rotating object, divided by the amount of time used to cover that distance; measured perpendicular to the plane of rotation, with direction usually indicated by the right-hand rule") []];
  mkTag (u "unit") (u "") [
    mkTag (u "def") (u "1.111111e-7 kg/m") [];
    mkTag (u "aliases") (u "") [
      mkTag (u "name") (u "") [
        mkTag (u "singular") (u "denier") []]];
    mkTag (u "definition") (u "unit of lineic mass density for fibers, equal to the mass in grams per 9000 meters (more common in United States and United Kingdom); a single strand of silk is approximately one denier") []];
  mkTag (u "unit") (u "") [
    mkTag (u "comment") (u "exact") [];
    mkTag (u "def") (u "1e-6 kg/m") [];
    mkTag (u "aliases") (u "") [
      mkTag (u "name") (u "") [
        mkTag (u "singular") (u "tex") []]];
    mkTag (u "definition") (u "unit of lineic mass density for fibers, defined as mass in grams per 1000 meters (more common in Canada and Continental Europe)") []];
  mkTag (u "unit") (u "") [
    mkTag (u "def") (u "5.72135e-11 kg/(Pa.s.m^2)") [];
    mkTag (u "aliases") (u "") [
      mkTag (u "name") (u "") [
        mkTag (u "singular") (u "perm_0C") [];
        mkTag (u "plural") (u "perms_0C") []]];
    mkTag (u "definition") (u "unit of mass per unit time (includes flow) for how fast water vapor flows through substance, or permeance; equals 1 gram of water vapor per hour, per square meter, per millimeter of mercury at 0 degrees C") []];
  mkTag (u "unit") (u "") [
    mkTag (u "def") (u "5.74525e-11 kg/(Pa.s.m^2)") [];
    mkTag (u "aliases") (u "") [
      mkTag (u "name") (u "") [
        mkTag (u "singular") (u "perm_23C") [];
        mkTag (u "plural") (u "perms_23C") []]];
    mkTag (u "definition") (u "unit of mass per unit time for how fast water vapor flows through substance, or permeance; equals 1 gram of water vapor per hour, per square meter, per millimeter of mercury at 23 degrees C") []];
  mkTag (u "unit") (u "") [
    mkTag (u "def") (u "5.067075e-10 m^2") [];
    mkTag (u "aliases") (u "") [
      mkTag (u "name") (u "") [
        mkTag (u "singular") (u "circular_mil") []]];
    mkTag (u "definition") (u "unit of area equal to the area of a one-mil diameter circle") []];
  mkTag (u "unit") (u "") [
    mkTag (u "comment") (u "porous solid permeability") [];
    mkTag (u "def") (u "9.869233e-13 m^2") [];
    mkTag (u "aliases") (u "") [
      mkTag (u "name") (u "") [
        mkTag (u "singular") (u "darcy") []]];
    mkTag (u "definition") (u "unit of area for measuring permeability to fluid, equal to 1 cubic centimeter of fluid with 1 centipoise viscosity in 1 second through a 1-square-centimeter cross section of porous medium 1 centimeter long at 1 atmosphere") []];
  mkTag (u "unit") (u "") [
    mkTag (u "comment") (u "exact") [];
    mkTag (u "def") (u "160 rod^2") [];
    mkTag (u "aliases") (u "") [
      mkTag (u "name") (u "") [
        mkTag (u "singular") (u "acre") []]];
    mkTag (u "definition") (u "unit of area in the US Customary System, used in land and sea floor measurement, equal to 43560 square feet") []];
  mkTag (u "unit") (u "") [
    mkTag (u "comment") ([65%N; 110%N; 32%N; 34%N; 97%N; 99%N; 114%N; 101%N; 46%N; 102%N; 111%N; 111%N; 116%N; 34%N; 44%N; 32%N; 104%N; 111%N; 119%N; 101%N; 118%N; 101%N; 114%N; 44%N; 32%N; 105%N; 115%N; 32%N; 49%N; 50%N; 51%N; 51%N; 46%N; 52%N; 56%N; 54%N; 55%N; 55%N; 49%N; 52%N; 56%N; 57%N; 55%N; 32%N; 109%N; 94%N; 51%N; 46%N; 32%N; 32%N; 79%N; 100%N; 100%N; 46%N]) [];
    mkTag (u "def") (u "1.233489e3 m^3") [];
    mkTag (u "aliases") (u "") [
      mkTag (u "name") (u "") [
        mkTag (u "singular") (u "acre_foot") [];
        mkTag (u "plural") (u "acre_feet") []]];
    mkTag (u "definition") (u "unit of volume used to describe large-scale water resources in the United State; equal to the volume of one acre of surface area with one foot of depth depth") []];
  mkTag (u "unit") (u "") [
    mkTag (u "def") (u "2.359737e-3 m^3") [];
    mkTag (u "aliases") (u "") [
      mkTag (u "name") (u "") [
        mkTag (u "singular") (u "board_foot") [];
        mkTag (u "plural") (u "board_feet") []]];
    mkTag (u "definition") (u "unit of volume equal to the cubic contents of a piece of lumber one foot square and one inch thick, used in measuring logs and lumber in the United States and Canada") []];
  mkTag (u "unit") (u "") [
    mkTag (u "def") (u "3.523907e-2 m^3") [];
    mkTag (u "aliases") (u "") [
      mkTag (u "name") (u "") [
        mkTag (u "singular") (u "bushel") []];
      mkTag (u "symbol") (u "bu") []];
    mkTag (u "definition") (u "unit of volume defined as 2150.42 cubic inches or 4 pecks in the US Customary system (and formerly in England), where it is used as a dry measure") []];
  mkTag (u "unit") (u "") [
    mkTag (u "comment") (u "exact") [];
    mkTag (u "def") (u "bushel/4") [];
    mkTag (u "aliases") (u "") [
      mkTag (u "name") (u "") [
        mkTag (u "singular") (u "peck") []];
      mkTag (u "symbol") (u "pk") []];
    mkTag (u "definition") (u "unit of volume defined as 537.6 cubic inches  in the US Customary system (and formerly in England), where it is used as a dry measure") []];
  mkTag (u "unit") (u "") [
    mkTag (u "comment") (u "exact") [];
    mkTag (u "def") (u "4.546090e-3 m^3") [];
    mkTag (u "aliases") (u "") [
      mkTag (u "name") (u "") [
        mkTag (u "singular") (u "Canadian_liquid_gallon") []]];
    mkTag (u "definition") (u "unit of volume for liquids in the Imperial system") []];
  mkTag (u "unit") (u "") [
    mkTag (u "def") (u "4.404884e-3 m^3") [];
    mkTag (u "aliases") (u "") [
      mkTag (u "name") (u "") [
        mkTag (u "singular") (u "US_dry_gallon") []]];
    mkTag (u "definition") (u "unit of volume for dry measure in the US Customary system, defined as 1/2 peck or 1/8 bushel") []];
  mkTag (u "unit") (u "") [
    mkTag (u "comment") (u "exact") [];
    mkTag (u "def") (u "cm^3") [];
    mkTag (u "aliases") (u "") [
      mkTag (u "symbol") (u "cc") []];
    mkTag (u "definition") (u "unit of volume equal to the volume of a cube 1 centimeter on each side") []];
  mkTag (u "unit") (u "") [
    mkTag (u "comment") (u "exact") [];
    mkTag (u "def") (u "1 m^3") [];
    mkTag (u "aliases") (u "") [
      mkTag (u "name") (u "") [
        mkTag (u "singular") (u "stere") []]];
    mkTag (u "definition") (u "unit of volume equal to a cubic meter, originally defined primarily as a measure for firewood") []];
  mkTag (u "unit") (u "") [
    mkTag (u "def") (u "2.831685 m^3") [];
    mkTag (u "aliases") (u "") [
      mkTag (u "name") (u "") [
        mkTag (u "singular") (u "register_ton") []]];
    mkTag (u "definition") (u "unit of volume used for internal capacity of ships, equal to 100 cubic feet") []];
  mkTag (u "unit") (u "") [
    mkTag (u "comment") (u "exact") [];
    mkTag (u "def") (u "US_dry_gallon/4") [];
    mkTag (u "aliases") (u "") [
      mkTag (u "name") (u "") [
        mkTag (u "singular") (u "US_dry_quart") []];
      mkTag (u "name") (u "") [
        mkTag (u "singular") (u "dry_quart") []]];
    mkTag (u "definition") (u "unit of volume for dry measure in the US Customary system, equal to 1/32 US bushel") []];
  mkTag (u "unit") (u "") [
    mkTag (u "comment") (u "exact") [];
    mkTag (u "def") (u "US_dry_gallon/8") [];
    mkTag (u "aliases") (u "") [
      mkTag (u "name") (u "") [
        mkTag (u "singular") (u "US_dry_pint") []];
      mkTag (u "name") (u "") [
        mkTag (u "singular") (u "dry_pint") []]];
    mkTag (u "definition") (u "unit of volume for dry measure in the US Customary system, equal to 1/2 US dry quart") []];
  mkTag (u "unit") (u "") [
    mkTag (u "def") (u "3.785412e-3 m^3") [];
    mkTag (u "aliases") (u "") [
      mkTag (u "name") (u "") [
        mkTag (u "singular") (u "US_liquid_gallon") []];
      mkTag (u "name") (u "") [
        mkTag (u "singular") (u "liquid_gallon") []];
      mkTag (u "name") (u "") [
        mkTag (u "singular") (u "gallon") []]];
    mkTag (u "definition") (u "unit of volume for liquid measure in the US Customary system, defined as 3.785412 liters") []];
  mkTag (u "unit") (u "") [
    mkTag (u "comment") (u "The following is the definition of the petroleum industry") [];
    mkTag (u "def") (u "42 US_liquid_gallon") [];
    mkTag (u "aliases") (u "") [
      mkTag (u "name") (u "") [
        mkTag (u "singular") (u "barrel") []];
      mkTag (u "symbol") (u "bbl") []];
    mkTag (u "definition") (u "unit of volume used by US and Canadian petroleum organizations") []];
  mkTag (u "unit") (u "") [
    mkTag (u "comment") ([84%N; 104%N; 101%N; 32%N; 102%N; 111%N; 108%N; 108%N; 111%N; 119%N; 105%N; 110%N; 103%N; 32%N; 105%N; 115%N; 32%N; 101%N; 120%N; 97%N; 99%N; 116%N; 32%N; 114%N; 101%N; 103%N; 97%N; 114%N; 100%N; 108%N; 101%N; 115%N; 115%N; 32%N; 111%N; 102%N; 32%N; 116%N; 104%N; 101%N; 32%N; 100%N; 101%N; 102%N; 105%N; 110%N; 105%N; 116%N; 105%N; 111%N; 110%N; 32%N; 111%N; 102%N; 32%N; 34%N; 98%N; 97%N; 114%N; 114%N; 101%N; 108%N; 34%N]) [];
    mkTag (u "def") (u "barrel/4") [];
    mkTag (u "aliases") (u "") [
      mkTag (u "name") (u "") [
        mkTag (u "singular") (u "firkin") []]];
    mkTag (u "definition") (u "unit of volume whose exact quantity depends on the type of barrel on which it is defined; in this table it is defined based on the oil barrel used by the petroleum industry") []];
  mkTag (u "unit") (u "") [
    mkTag (u "comment") (u "exact") [];
    mkTag (u "def") (u "US_liquid_gallon/4") [];
    mkTag (u "aliases") (u "") [
      mkTag (u "name") (u "") [
        mkTag (u "singular") (u "US_liquid_quart") []];
      mkTag (u "name") (u "") [
        mkTag (u "singular") (u "liquid_quart") []];
      mkTag (u "name") (u "") [
        mkTag (u "singular") (u "quart") []]];
    mkTag (u "definition") (u "unit of volume for liquid measure in the US Customary system, equal to 1/4 liquid gallon") []];
  mkTag (u "unit") (u "") [
    mkTag (u "comment") (u "exact") [];
    mkTag (u "def") (u "US_liquid_gallon/8") [];
    mkTag (u "aliases") (u "") [
      mkTag (u "name") (u "") [
        mkTag (u "singular") (u "US_liquid_pint") []];
      mkTag (u "name") (u "") [
        mkTag (u "singular") (u "liquid_pint") []];
      mkTag (u "name") (u "") [
        mkTag (u "singular") (u "pint") []];
      mkTag (u "symbol") (u "pt") []];
    mkTag (u "definition") (u "unit of volume for liquid measure in the US Customary system, equal to 1/8 liquid gallon") []];
  mkTag (u "unit") (u "") [
    mkTag (u "comment") (u "exact") [];
    mkTag (u "def") (u "US_liquid_gallon/16") [];
    mkTag (u "aliases") (u "") [
      mkTag (u "name") (u "") [
        mkTag (u "singular") (u "US_liquid_cup") []];
      mkTag (u "name") (u "") [
        mkTag (u "singular") (u "liquid_cup") []];
      mkTag (u "name") (u "") [
        mkTag (u "singular") (u "cup") []]];
    mkTag (u "definition") (u "unit of volume for liquid measure in the US Customary system, equal to 1/16 liquid gallon") []]
]%list.

Definition db_part4 : list tag := [
  mkTag (u "unit") (u "") [
    mkTag (u "comment") (u "exact") [];
    mkTag (u "def") (u "US_liquid_gallon/32") [];
    mkTag (u "aliases") (u "") [
      mkTag (u "name") (u "") [
        mkTag (u "singular") (u "US_liquid_gill") []];
      mkTag (u "name") (u "") [
        mkTag (u "singular") (u "liquid_gill") []];
      mkTag (u "name") (u "") [
        mkTag (u "singular") (u "gill") []]];
    mkTag (u "definition") (u "unit of volume for liquid measure in the US Customary system, equal to 1/32 liquid gallon") []];
  mkTag (u "unit") (u "") [
    mkTag (u "comment") (u "exact") [];
    mkTag (u "def") (u "US_liquid_gallon/128") [];
    mkTag (u "aliases") (u "") [
      mkTag (u "name") (u "") [
        mkTag (u "singular") (u "US_fluid_ounce") []];
      mkTag (u "name") (u "") [
        mkTag (u "singular") (u "US_liquid_ounce") []];
      mkTag (u "name") (u "") [
        mkTag (u "singular") (u "fluid_ounce") []];
      mkTag (u "name") (u "") [
        mkTag (u "singular") (u "liquid_ounce") []];
      mkTag (u "symbol") (u "oz") [];
      mkTag (u "symbol") (u "floz") []];
    mkTag (u "definition") (u "unit of volume for liquid measure in the US Customary system, equal to 1/128 liquid gallon") []];
  mkTag (u "unit") (u "") [
    mkTag (u "comment") (u "exact") [];
    mkTag (u "def") (u "US_fluid_ounce/2") [];
    mkTag (u "aliases") (u "") [
      mkTag (u "name") (u "") [
        mkTag (u "singular") (u "tablespoon") []];
      mkTag (u "symbol") (u "Tbl") [];
      mkTag (u "symbol") (u "Tbsp") [];
      mkTag (u "symbol") (u "tbsp") [];
      mkTag (u "symbol") (u "Tblsp") [];
      mkTag (u "symbol") (u "tblsp") []];
    mkTag (u "definition") (u "unit of volume for liquid measure in the US Customary system, equal to 1/2 liquid ounce") []];
  mkTag (u "unit") (u "") [
    mkTag (u "comment") (u "exact") [];
    mkTag (u "def") (u "US_fluid_ounce/8") [];
    mkTag (u "aliases") (u "") [
      mkTag (u "name") (u "") [
        mkTag (u "singular") (u "fluid_dram") []];
      mkTag (u "symbol") (u "fldr") []];
    mkTag (u "definition") (u "unit of volume for liquid measure in the apothecary system, equal to 1/8 liquid ounce") []];
  mkTag (u "unit") (u "") [
    mkTag (u "comment") (u "exact") [];
    mkTag (u "def") (u "tablespoon/3") [];
    mkTag (u "aliases") (u "") [
      mkTag (u "name") (u "") [
        mkTag (u "singular") (u "teaspoon") []];
      mkTag (u "symbol") (u "tsp") []];
    mkTag (u "definition") (u "unit of volume defined as 1/3 tablespoon, the actual volume of which can vary depending on the measurement system (but is based on the US Customary system in this database)") []];
  mkTag (u "unit") (u "") [
    mkTag (u "comment") (u "exact") [];
    mkTag (u "def") (u "4.546090e-3 m^3") [];
    mkTag (u "aliases") (u "") [
      mkTag (u "name") (u "") [
        mkTag (u "singular") (u "UK_liquid_gallon") []]];
    mkTag (u "definition") (u "unit of volume for liquid measure in the Imperial system") []];
  mkTag (u "unit") (u "") [
    mkTag (u "comment") (u "exact") [];
    mkTag (u "def") (u "UK_liquid_gallon/4") [];
    mkTag (u "aliases") (u "") [
      mkTag (u "name") (u "") [
        mkTag (u "singular") (u "UK_liquid_quart") []]];
    mkTag (u "definition") (u "unit of volume for liquid measure in the Imperial system, equal to 1/4 liquid gallon") []];
  mkTag (u "unit") (u "") [
    mkTag (u "comment") (u "exact") [];
    mkTag (u "def") (u "UK_liquid_gallon/8") [];
    mkTag (u "aliases") (u "") [
      mkTag (u "name") (u "") [
        mkTag (u "singular") (u "UK_liquid_pint") []]];
    mkTag (u "definition") (u "unit of volume for liquid measure in the Imperial system, equal to 1/8 liquid gallon") []];
  mkTag (u "unit") (u "") [
    mkTag (u "comment") (u "exact") [];
    mkTag (u "def") (u "UK_liquid_gallon/16") [];
    mkTag (u "aliases") (u "") [
      mkTag (u "name") (u "") [
        mkTag (u "singular") (u "UK_liquid_cup") []]];
    mkTag (u "definition") (u "unit of volume for liquid measure in the Imperial system, equal to 1/16 liquid gallon") []];
  mkTag (u "unit") (u "") [
    mkTag (u "comment") (u "exact") [];
    mkTag (u "def") (u "UK_liquid_gallon/32") [];
    mkTag (u "aliases") (u "") [
      mkTag (u "name") (u "") [
        mkTag (u "singular") (u "UK_liquid_gill") []]];
    mkTag (u "definition") (u "unit of volume for liquid measure in the Imperial system, equal to 1/32 liquid gallon") []];
  mkTag (u "unit") (u "") [
    mkTag (u "comment") (u "exact") [];
    mkTag (u "def") (u "UK_liquid_gallon/160") [];
    mkTag (u "aliases") (u "") [
      mkTag (u "name") (u "") [
        mkTag (u "singular") (u "UK_fluid_ounce") []];
      mkTag (u "name") (u "") [
        mkTag (u "singular") (u "UK_liquid_ounce") []]];
    mkTag (u "definition") (u "unit of volume for liquid measure in the Imperial system, equal to 1/160 liquid gallon") []];
  mkTag (u "unit") (u "") [
    mkTag (u "def") (u "lg(re (1e-6 m)^3)") [];
    mkTag (u "aliases") (u "") [
      mkTag (u "symbol") (u "BZ") []];
    mkTag (u "definition") ([108%N; 111%N; 103%N; 97%N; 114%N; 105%N; 116%N; 104%N; 109%N; 105%N; 99%N; 32%N; 117%N; 110%N; 105%N; 116%N; 32%N; 117%N; 115%N; 101%N; 100%N; 32%N; 116%N; 111%N; 32%N; 99%N; 111%N; 109%N; 112%N; 97%N; 114%N; 101%N; 32%N; 116%N; 104%N; 101%N; 32%N; 114%N; 101%N; 102%N; 108%N; 101%N; 99%N; 116%N; 105%N; 118%N; 105%N; 116%N; 121%N; 32%N; 40%N; 90%N; 41%N; 32%N; 111%N; 102%N; 32%N; 97%N; 110%N; 32%N; 117%N; 110%N; 107%N; 110%N; 111%N; 119%N; 110%N; 32%N; 114%N; 101%N; 109%N; 111%N; 116%N; 101%N; 32%N; 111%N; 98%N; 106%N; 101%N; 99%N; 116%N; 44%N; 32%N; 116%N; 111%N; 32%N; 116%N; 104%N; 101%N; 32%N; 114%N; 101%N; 102%N; 108%N; 101%N; 99%N; 116%N; 105%N; 118%N; 101%N; 32%N; 114%N; 101%N; 116%N; 117%N; 114%N; 110%N; 32%N; 99%N; 114%N; 101%N; 97%N; 116%N; 101%N; 100%N; 32%N; 98%N; 121%N; 32%N; 97%N; 32%N; 100%N; 114%N; 111%N; 112%N; 108%N; 101%N; 116%N; 32%N; 111%N; 102%N; 32%N; 114%N; 97%N; 105%N; 110%N; 32%N; 119%N; 105%N; 116%N; 104%N; 32%N; 97%N; 32%N; 100%N; 105%N; 97%N; 109%N; 101%N; 116%N; 101%N; 114%N; 32%N; 111%N; 102%N; 32%N; 49%N; 32%N; 109%N; 109%N; 59%N; 32%N; 105%N; 115%N; 32%N; 116%N; 104%N; 101%N; 32%N; 98%N; 97%N; 115%N; 101%N; 32%N; 117%N; 110%N; 105%N; 116%N; 32%N; 102%N; 111%N; 114%N; 32%N; 34%N; 100%N; 66%N; 122%N; 34%N; 44%N; 32%N; 119%N; 104%N; 105%N; 99%N; 104%N; 32%N; 105%N; 115%N; 32%N; 116%N; 104%N; 101%N; 32%N; 116%N; 121%N; 112%N; 105%N; 99%N; 97%N; 108%N; 32%N; 108%N; 111%N; 103%N; 97%N; 114%N; 105%N; 116%N; 104%N; 109%N; 105%N; 99%N; 32%N; 117%N; 110%N; 105%N; 116%N; 32%N; 102%N; 111%N; 114%N; 32%N; 109%N; 101%N; 97%N; 115%N; 117%N; 114%N; 105%N; 110%N; 103%N; 32%N; 97%N; 116%N; 109%N; 111%N; 115%N; 112%N; 104%N; 101%N; 114%N; 105%N; 99%N; 32%N; 114%N; 97%N; 100%N; 97%N; 114%N; 32%N; 114%N; 101%N; 102%N; 108%N; 101%N; 99%N; 116%N; 105%N; 118%N; 105%N; 116%N; 121%N; 59%N; 32%N; 97%N; 32%N; 118%N; 97%N; 108%N; 117%N; 101%N; 32%N; 111%N; 102%N; 32%N; 48%N; 32%N; 66%N; 122%N; 32%N; 40%N; 48%N; 32%N; 68%N; 66%N; 122%N; 41%N; 32%N; 99%N; 111%N; 114%N; 114%N; 101%N; 115%N; 112%N; 111%N; 110%N; 100%N; 115%N; 32%N; 116%N; 111%N; 32%N; 116%N; 104%N; 101%N; 32%N; 114%N; 101%N; 116%N; 117%N; 114%N; 110%N; 32%N; 102%N; 114%N; 111%N; 109%N; 32%N; 97%N; 32%N; 115%N; 105%N; 110%N; 103%N; 108%N; 101%N; 32%N; 99%N; 117%N; 98%N; 105%N; 99%N; 32%N; 109%N; 105%N; 99%N; 114%N; 111%N; 110%N; 59%N; 32%N; 97%N; 32%N; 118%N; 97%N; 108%N; 117%N; 101%N; 32%N; 111%N; 102%N; 32%N; 54%N; 32%N; 66%N; 122%N; 32%N; 40%N; 54%N; 48%N; 32%N; 68%N; 66%N; 122%N; 41%N; 32%N; 99%N; 111%N; 114%N; 114%N; 101%N; 115%N; 112%N; 111%N; 110%N; 100%N; 115%N; 32%N; 116%N; 111%N; 32%N; 101%N; 120%N; 116%N; 114%N; 101%N; 109%N; 101%N; 108%N; 121%N; 32%N; 104%N; 101%N; 97%N; 118%N; 121%N; 32%N; 114%N; 97%N; 105%N; 110%N; 46%N]) []];
  mkTag (u "unit") (u "") [
    mkTag (u "def") (u "1e-8 s") [];
    mkTag (u "aliases") (u "") [
      mkTag (u "name") (u "") [
        mkTag (u "singular") (u "shake") []]];
    mkTag (u "definition") (u "unit of time approximating the lifetime of an individual neutron, useful for describing very brief durations, e.g., in nuclear physics") []];
  mkTag (u "unit") (u "") [
    mkTag (u "def") (u "8.616409e4 s") [];
    mkTag (u "aliases") (u "") [
      mkTag (u "name") (u "") [
        mkTag (u "singular") (u "sidereal_day") []]];
    mkTag (u "definition") (u "unit of time that it takes the earth to complete one revolution with respect to a star, roughly 23 hours, 56 minutes, 4 seconds") []];
  mkTag (u "unit") (u "") [
    mkTag (u "def") (u "3.590170e3 s") [];
    mkTag (u "aliases") (u "") [
      mkTag (u "name") (u "") [
        mkTag (u "singular") (u "sidereal_hour") []]];
    mkTag (u "definition") (u "unit of time equal to 1/24 sidereal day") []];
  mkTag (u "unit") (u "") [
    mkTag (u "def") (u "5.983617e1 s") [];
    mkTag (u "aliases") (u "") [
      mkTag (u "name") (u "") [
        mkTag (u "singular") (u "sidereal_minute") []]];
    mkTag (u "definition") (u "unit of time equal to 1/60 sidereal hour") []];
  mkTag (u "unit") (u "") [
    mkTag (u "def") (u "0.9972696 s") [];
    mkTag (u "aliases") (u "") [
      mkTag (u "name") (u "") [
        mkTag (u "singular") (u "sidereal_second") []]];
    mkTag (u "definition") (u "unit of time equal to 1/60 sidereal minute") []];
  mkTag (u "unit") (u "") [
    mkTag (u "def") (u "3.155815e7 s") [];
    mkTag (u "aliases") (u "") [
      mkTag (u "name") (u "") [
        mkTag (u "singular") (u "sidereal_year") []]];
    mkTag (u "definition") (u "unit of time for the earth to make one complete revolution around the sun, relative to the fixed stars") []];
  mkTag (u "unit") (u "") [
    mkTag (u "def") (u "3.15569259747e7 s") [];
    mkTag (u "aliases") (u "") [
      mkTag (u "name") (u "") [
        mkTag (u "singular") (u "tropical_year") []];
      mkTag (u "name") (u "") [
        mkTag (u "singular") (u "year") []];
      mkTag (u "symbol") (u "yr") []];
    mkTag (u "definition") (u "unit of time; Interval between 2 successive passages of sun through vernal equinox (365.242198781 days). See http://www.ast.cam.ac.uk/pubinfo/leaflets/, http://aa.usno.navy.mil/AA/, and http://adswww.colorado.edu/adswww/astro_coord.html") []];
  mkTag (u "unit") (u "") [
    mkTag (u "def") (u "29.530589 day") [];
    mkTag (u "aliases") (u "") [
      mkTag (u "name") (u "") [
        mkTag (u "singular") (u "lunar_month") []]];
    mkTag (u "definition") (u "unit of time equal to the average time between successive new or full moons; equal to approximately 29 days, 12 hours, 44 minutes") []];
  mkTag (u "unit") (u "") [
    mkTag (u "def") (u "365 day") [];
    mkTag (u "aliases") (u "") [
      mkTag (u "name") (u "") [
        mkTag (u "singular") (u "common_year") []]];
    mkTag (u "definition") (u "unit of time corresponding to a 'normal' calendar year, that is, one without insertion of a leap day") []];
  mkTag (u "unit") (u "") [
    mkTag (u "def") (u "366 day") [];
    mkTag (u "aliases") (u "") [
      mkTag (u "name") (u "") [
        mkTag (u "singular") (u "leap_year") []]];
    mkTag (u "definition") (u "unit of time corresponding to a calendar year with a leap day inserted") []];
  mkTag (u "unit") (u "") [
    mkTag (u "def") (u "365.25 day") [];
    mkTag (u "aliases") (u "") [
      mkTag (u "name") (u "") [
        mkTag (u "singular") (u "Julian_year") []]];
    mkTag (u "definition") (u "unit of time recognized by the International Astronomical Union for use in astronomy, defined as 365.25 days of 86400 seconds") []];
  mkTag (u "unit") (u "") [
    mkTag (u "def") (u "365.2425 day") [];
    mkTag (u "aliases") (u "") [
      mkTag (u "name") (u "") [
        mkTag (u "singular") (u "Gregorian_year") []]];
    mkTag (u "definition") (u "unit of time based on the Gregorian Calendar, the one commonly used today; approximates the tropical year as 365 + 97/400 days") []];
  mkTag (u "unit") (u "") [
    mkTag (u "def") (u "27.321661 day") [];
    mkTag (u "aliases") (u "") [
      mkTag (u "name") (u "") [
        mkTag (u "singular") (u "sidereal_month") []]];
    mkTag (u "definition") (u "unit of time based on 1/12 of the sidereal year") []];
  mkTag (u "unit") (u "") [
    mkTag (u "def") (u "27.321582 day") [];
    mkTag (u "aliases") (u "") [
      mkTag (u "name") (u "") [
        mkTag (u "singular") (u "tropical_month") []]];
    mkTag (u "definition") (u "unit of time based on 1/12 of the tropical year") []];
  mkTag (u "unit") (u "") [
    mkTag (u "def") (u "14 day") [];
    mkTag (u "aliases") (u "") [
      mkTag (u "name") (u "") [
        mkTag (u "singular") (u "fortnight") []]];
    mkTag (u "definition") (u "unit of time commonly defined as 14 days") []];
  mkTag (u "unit") (u "") [
    mkTag (u "def") (u "7 day") [];
    mkTag (u "aliases") (u "") [
      mkTag (u "name") (u "") [
        mkTag (u "singular") (u "week") []]];
    mkTag (u "definition") (u "unit of time commonly defined as 7 days") []];
  mkTag (u "unit") (u "") [
    mkTag (u "comment") (u "multiple values have been proposed for the amount of time represented by a 'jiffy'") [];
    mkTag (u "def") (u "0.01 s") [];
    mkTag (u "aliases") (u "") [
      mkTag (u "name") (u "") [
        mkTag (u "singular") (u "jiffy") []]];
    mkTag (u "definition") (u "unit of time used in computer animation as a method of defining playback rate") []];
  mkTag (u "unit") (u "") [
    mkTag (u "def") (u "1e9 year") [];
    mkTag (u "aliases") (u "") [
      mkTag (u "name") (u "") [
        mkTag (u "singular") (u "eon") []]];
    mkTag (u "definition") (u "unit of time defined in astronomy as 1 billion years") []];
  mkTag (u "unit") (u "") [
    mkTag (u "def") (u "year/12") [];
    mkTag (u "aliases") (u "") [
      mkTag (u "name") (u "") [
        mkTag (u "singular") (u "month") []]];
    mkTag (u "definition") (u "unit of time defined as the average length of time for a calendar month") []];
  mkTag (u "unit") (u "") [
    mkTag (u "comment") (u "exact") [];
    mkTag (u "def") (u "1e6 m^3/s") [];
    mkTag (u "aliases") (u "") [
      mkTag (u "name") (u "") [
        mkTag (u "singular") (u "sverdrup") []]];
    mkTag (u "definition") (u "unit of volume transport, used almost exclusively to measure the volumetric rate of ocean currents") []];
  mkTag (u "unit") (u "") [
    mkTag (u "comment") (u "exact") [];
    mkTag (u "def") (u "9.806650 m/s^2") [];
    mkTag (u "aliases") (u "") [
      mkTag (u "name") (u "") [
        mkTag (u "singular") (u "standard_free_fall") []]];
    mkTag (u "definition") (u "unit of acceleration corresponding to the nominal gravitational acceleration of an object in a vacuum near the surface of earth") []];
  mkTag (u "unit") (u "") [
    mkTag (u "comment") (u "should be local") [];
    mkTag (u "def") (u "standard_free_fall") [];
    mkTag (u "aliases") (u "") [
      mkTag (u "name") (u "") [
        mkTag (u "singular") (u "gravity") []]];
    mkTag (u "definition") (u "unit of acceleration synonymous with standard rate of free fall (in earth's gravity)") []];
  mkTag (u "unit") (u "") [
    mkTag (u "comment") (u "exact") [];
    mkTag (u "def") (u "gravity 1000 kg/m^3") [];
    mkTag (u "aliases") (u "") [
      mkTag (u "name") (u "") [
        mkTag (u "singular") (u "conventional_water") []];
      mkTag (u "name") (u "") [
        mkTag (u "singular") (u "water") []];
      mkTag (u "symbol") (u "H2O") [];
      mkTag (u "symbol") (u "h2o") []];
    mkTag (u "definition") (u "specifies the acceleration at the earth's surface of a substance with the density of water") []];
  mkTag (u "unit") (u "") [
    mkTag (u "def") (u "gravity 999.972 kg/m^3") [];
    mkTag (u "aliases") (u "") [
      mkTag (u "name") (u "") [
        mkTag (u "singular") (u "water_4C") [];
        mkTag (u "plural") (u "waters_4C") []];
      mkTag (u "name") (u "") [
        mkTag (u "singular") (u "water_39F") [];
        mkTag (u "plural") (u "waters_39F") []]];
    mkTag (u "definition") (u "specifies the acceleration at the earth's surface of a substance with the density of water at 4 degrees C") []];
  mkTag (u "unit") (u "") [
    mkTag (u "def") (u "gravity 999.001 kg/m^3") [];
    mkTag (u "aliases") (u "") [
      mkTag (u "name") (u "") [
        mkTag (u "singular") (u "water_60F") [];
        mkTag (u "plural") (u "waters_60F") []]];
    mkTag (u "definition") (u "specifies the acceleration at the earth's surface of a substance with the density of water at 60 degrees F") []];
  mkTag (u "unit") (u "") [
    mkTag (u "def") (u "gravity 13595.10 kg/m^3") [];
    mkTag (u "aliases") (u "") [
      mkTag (u "name") (u "") [
        mkTag (u "singular") (u "mercury_0C") [];
        mkTag (u "plural") (u "mercuries_0C") []];
      mkTag (u "name") (u "") [
        mkTag (u "singular") (u "mercury_32F") [];
        mkTag (u "plural") (u "mercuries_32F") []];
      mkTag (u "name") (u "") [
        mkTag (u "singular") (u "conventional_mercury") [];
        mkTag (u "plural") (u "conventional_mercuries") []];
      mkTag (u "symbol") (u "Hg") []];
    mkTag (u "definition") (u "specifies the acceleration at the earth's surface of a substance with the density of mercury at 0 degrees C") []];
  mkTag (u "unit") (u "") [
    mkTag (u "def") (u "gravity 13556.8 kg/m^3") [];
    mkTag (u "aliases") (u "") [
      mkTag (u "name") (u "") [
        mkTag (u "singular") (u "mercury_60F") [];
        mkTag (u "plural") (u "mercuries_60F") []]];
    mkTag (u "definition") (u "specifies the acceleration at the earth's surface of a substance with the density of mercury at 60 degrees F") []];
  mkTag (u "unit") (u "") [
    mkTag (u "def") (u "standard_free_fall") [];
    mkTag (u "aliases") (u "") [
      mkTag (u "name") (u "") [
        mkTag (u "singular") (u "force") []]];
    mkTag (u "definition") (u "unit of force equivalent to the force generated by the effect of gravity") []]
]%list.

Definition db_part5 : list tag := [
  mkTag (u "unit") (u "") [
    mkTag (u "comment") (u "exact") [];
    mkTag (u "def") (u "1e-5 N") [];
    mkTag (u "aliases") (u "") [
      mkTag (u "name") (u "") [
        mkTag (u "singular") (u "dyne") []]];
    mkTag (u "definition") (u "unit of force, equal to the force that produces an acceleration of one centimeter per second per second on a mass of one gram (the standard centimeter-gram-second unit of force)") []];
  mkTag (u "unit") (u "") [
    mkTag (u "comment") (u "exact") [];
    mkTag (u "def") (u "9.806650e-3 N") [];
    mkTag (u "aliases") (u "") [
      mkTag (u "name") (u "") [
        mkTag (u "singular") (u "pond") []]];
    mkTag (u "definition") (u "unit of force, equal to the magnitude of the force exerted by one gram of mass in a 9.80665 m/s2 gravitational field") []];
  mkTag (u "unit") (u "") [
    mkTag (u "comment") (u "exact") [];
    mkTag (u "def") (u "9.806650 N") [];
    mkTag (u "aliases") (u "") [
      mkTag (u "name") (u "") [
        mkTag (u "singular") (u "force_kilogram") []];
      mkTag (u "name") (u "") [
        mkTag (u "singular") (u "kilogram_force") [];
        mkTag (u "plural") (u "kilograms_force") []];
      mkTag (u "symbol") (u "kgf") []];
    mkTag (u "definition") (u "unit of force, equal to the magnitude of the force exerted by one kilogram of mass in a 9.80665 m/s2 gravitational field") []];
  mkTag (u "unit") (u "") [
    mkTag (u "comment") (u "exact") [];
    mkTag (u "def") (u "2.780139e-1 N") [];
    mkTag (u "aliases") (u "") [
      mkTag (u "name") (u "") [
        mkTag (u "singular") (u "force_ounce") []];
      mkTag (u "name") (u "") [
        mkTag (u "singular") (u "ounce_force") [];
        mkTag (u "plural") (u "ounces_force") []];
      mkTag (u "symbol") (u "ozf") []];
    mkTag (u "definition") (u "unit of force, equal to the magnitude of the force exerted by one ounce of mass in a 9.80665 m/s2 gravitational field") []];
  mkTag (u "unit") (u "") [
    mkTag (u "comment") (u "exact") [];
    mkTag (u "def") (u "4.4482216152605 N") [];
    mkTag (u "aliases") (u "") [
      mkTag (u "name") (u "") [
        mkTag (u "singular") (u "force_pound") []];
      mkTag (u "name") (u "") [
        mkTag (u "singular") (u "pound_force") [];
        mkTag (u "plural") (u "pounds_force") []];
      mkTag (u "symbol") (u "lbf") []];
    mkTag (u "definition") (u "unit of force, equal to the magnitude of the force exerted by one pound of mass in a 9.80665 m/s2 gravitational field") []];
  mkTag (u "unit") (u "") [
    mkTag (u "comment") (u "exact") [];
    mkTag (u "def") (u "1.382550e-1 N") [];
    mkTag (u "aliases") (u "") [
      mkTag (u "name") (u "") [
        mkTag (u "singular") (u "poundal") []]];
    mkTag (u "definition") (u "unit of force, that which is necessary to accelerate 1 pound-mass to 1 foot per second per second") []];
  mkTag (u "unit") (u "") [
    mkTag (u "comment") (u "exact") [];
    mkTag (u "def") (u "gram force") [];
    mkTag (u "aliases") (u "") [
      mkTag (u "name") (u "") [
        mkTag (u "singular") (u "gram_force") [];
        mkTag (u "plural") (u "grams_force") []];
      mkTag (u "name") (u "") [
        mkTag (u "singular") (u "force_gram") []];
      mkTag (u "symbol") (u "gf") []];
    mkTag (u "definition") (u "unit of force, equal to the magnitude of the force exerted by one gram of mass in a 9.80665 m/s2 gravitational field") []];
  mkTag (u "unit") (u "") [
    mkTag (u "comment") (u "exact") [];
    mkTag (u "def") (u "2000 force_pound") [];
    mkTag (u "aliases") (u "") [
      mkTag (u "name") (u "") [
        mkTag (u "singular") (u "force_ton") []];
      mkTag (u "name") (u "") [
        mkTag (u "singular") (u "ton_force") [];
        mkTag (u "plural") (u "tons_force") []]];
    mkTag (u "definition") (u "unit of force, equal to the magnitude of the force exerted by one ton of mass in a 9.80665 m/s2 gravitational field (specifically a short ton of mass)") []];
  mkTag (u "unit") (u "") [
    mkTag (u "comment") (u "exact") [];
    mkTag (u "def") (u "1000 lbf") [];
    mkTag (u "aliases") (u "") [
      mkTag (u "name") (u "") [
        mkTag (u "singular") (u "kip") []]];
    mkTag (u "definition") (u "unit of force, equal to the magnitude of the force exerted by one thousand pounds of mass in a 9.80665 m/s2 gravitational field") []];
  mkTag (u "unit") (u "") [
    mkTag (u "comment") (u "exact") [];
    mkTag (u "def") (u "1.01325e5 Pa") [];
    mkTag (u "aliases") (u "") [
      mkTag (u "name") (u "") [
        mkTag (u "singular") (u "standard_atmosphere") []];
      mkTag (u "name") (u "") [
        mkTag (u "singular") (u "atmosphere") []];
      mkTag (u "symbol") (u "atm") []];
    mkTag (u "definition") (u "unit of pressure, an international reference pressure intended to represent the mean atmospheric pressure at mean sea level at the latitude of Paris, France") []];
  mkTag (u "unit") (u "") [
    mkTag (u "comment") (u "exact; note that the symbol 'at' clashes with that of the katal ('kat'), the SI unit of catalytic activity") [];
    mkTag (u "def") (u "1 kg gravity/cm2") [];
    mkTag (u "aliases") (u "") [
      mkTag (u "name") (u "") [
        mkTag (u "singular") (u "technical_atmosphere") []];
      mkTag (u "symbol") (u "at") []];
    mkTag (u "definition") (u "unit of pressure equal to one kilogram force per square centimeter") []];
  mkTag (u "unit") (u "") [
    mkTag (u "def") (u "cm H2O") [];
    mkTag (u "aliases") (u "") [
      mkTag (u "symbol") (u "cm_H2O") [];
      mkTag (u "symbol") (u "cmH2O") []];
    mkTag (u "definition") (u "unit of pressure derived from pressure head calculations using metrology; represents the pressure exerted by a column of water of 1 cm height at 4 degrees C") []];
  mkTag (u "unit") (u "") [
    mkTag (u "comment") (u "exact") [];
    mkTag (u "def") (u "inch water_39F") [];
    mkTag (u "aliases") (u "") [
      mkTag (u "name") (u "") [
        mkTag (u "singular") (u "inch_H2O_39F") [];
        mkTag (u "plural") (u "inches_H2O_39F") []]];
    mkTag (u "definition") (u "unit of pressure representing the pressure exerted by a column of water of 1 inch height at 39 degrees F") []];
  mkTag (u "unit") (u "") [
    mkTag (u "comment") (u "exact") [];
    mkTag (u "def") (u "inch water_60F") [];
    mkTag (u "aliases") (u "") [
      mkTag (u "name") (u "") [
        mkTag (u "singular") (u "inch_H2O_60F") [];
        mkTag (u "plural") (u "inches_H2O_60F") []]];
    mkTag (u "definition") (u "unit of pressure representing the pressure exerted by a column of water of 1 inch height at 60 degrees F") []];
  mkTag (u "unit") (u "") [
    mkTag (u "def") (u "foot water") [];
    mkTag (u "aliases") (u "") [
      mkTag (u "name") (u "") [
        mkTag (u "singular") (u "foot_water") [];
        mkTag (u "plural") (u "feet_water") []];
      mkTag (u "name") (u "") [
        mkTag (u "singular") (u "foot_H2O") [];
        mkTag (u "plural") (u "feet_H2O") []];
      mkTag (u "name") (u "") [
        mkTag (u "singular") (u "footH2O") [];
        mkTag (u "plural") (u "feetH2O") []];
      mkTag (u "symbol") (u "ftH2O") [];
      mkTag (u "symbol") (u "fth2o") []];
    mkTag (u "definition") (u "unit of pressure representing the pressure exerted by a column of water of 1 foot height at 4 degrees C") []];
  mkTag (u "unit") (u "") [
    mkTag (u "def") (u "cm Hg") [];
    mkTag (u "aliases") (u "") [
      mkTag (u "symbol") (u "cm_Hg") [];
      mkTag (u "symbol") (u "cmHg") []];
    mkTag (u "definition") (u "unit of pressure representing the pressure exerted by a column of mercury of 1 cm height at 0 degrees C") []];
  mkTag (u "unit") (u "") [
    mkTag (u "comment") (u "exact") [];
    mkTag (u "def") (u "mm mercury_0C") [];
    mkTag (u "aliases") (u "") [
      mkTag (u "name") (u "") [
        mkTag (u "singular") (u "millimeter_Hg_0C") [];
        mkTag (u "plural") (u "millimeters_Hg_0C") []]];
    mkTag (u "definition") (u "unit of pressure representing the pressure exerted by a column of mercury of 1 mm height at 0 degrees C") []];
  mkTag (u "unit") (u "") [
    mkTag (u "comment") (u "exact") [];
    mkTag (u "def") (u "inch mercury_32F") [];
    mkTag (u "aliases") (u "") [
      mkTag (u "name") (u "") [
        mkTag (u "singular") (u "inch_Hg_32F") [];
        mkTag (u "plural") (u "inches_Hg_32F") []]];
    mkTag (u "definition") (u "unit of pressure representing the pressure exerted by a column of mercury of 1 inch height at 32 degrees F") []];
  mkTag (u "unit") (u "") [
    mkTag (u "comment") (u "exact") [];
    mkTag (u "def") (u "inch mercury_60F") [];
    mkTag (u "aliases") (u "") [
      mkTag (u "name") (u "") [
        mkTag (u "singular") (u "inch_Hg_60F") [];
        mkTag (u "plural") (u "inches_Hg_60F") []]];
    mkTag (u "definition") (u "unit of pressure representing the pressure exerted by a column of mercury of 1 inch height at 60 degrees F") []];
  mkTag (u "unit") (u "") [
    mkTag (u "def") (u "mm Hg") [];
    mkTag (u "aliases") (u "") [
      mkTag (u "name") (u "") [
        mkTag (u "singular") (u "millimeter_Hg") [];
        mkTag (u "plural") (u "millimeters_Hg") []];
      mkTag (u "name") (u "") [
        mkTag (u "singular") (u "torr") []];
      mkTag (u "symbol") (u "mm_Hg") [];
      mkTag (u "symbol") (u "mm_hg") [];
      mkTag (u "symbol") (u "mmHg") [];
      mkTag (u "symbol") (u "mmhg") []];
    mkTag (u "definition") (u "unit of pressure representing the pressure exerted by a column of mercury of 1 mm height at 0 degrees C; approximately (within 0.000015%, generally below measurement error) 1 Torr, which is 1/760 standard atmospheric pressure") []];
  mkTag (u "unit") (u "") [
    mkTag (u "def") (u "inch Hg") [];
    mkTag (u "aliases") (u "") [
      mkTag (u "name") (u "") [
        mkTag (u "singular") (u "inch_Hg") [];
        mkTag (u "plural") (u "inches_Hg") []];
      mkTag (u "symbol") (u "in_Hg") [];
      mkTag (u "symbol") (u "inHg") []];
    mkTag (u "definition") (u "unit of pressure representing the pressure exerted by a column of mercury of 1 inch height at 0 degrees C") []];
  mkTag (u "unit") (u "") [
    mkTag (u "comment") (u "exact") [];
    mkTag (u "def") (u "1 pound gravity/in^2") [];
    mkTag (u "aliases") (u "") [
      mkTag (u "symbol") (u "psi") []];
    mkTag (u "definition") ([117%N; 110%N; 105%N; 116%N; 32%N; 111%N; 102%N; 32%N; 112%N; 114%N; 101%N; 115%N; 115%N; 117%N; 114%N; 101%N; 32%N; 114%N; 101%N; 112%N; 114%N; 101%N; 115%N; 101%N; 110%N; 116%N; 105%N; 110%N; 103%N; 32%N; 116%N; 104%N; 101%N; 32%N; 112%N; 114%N; 101%N; 115%N; 115%N; 117%N; 114%N; 101%N; 32%N; 101%N; 120%N; 101%N; 114%N; 116%N; 101%N; 100%N; 44%N; 32%N; 100%N; 117%N; 101%N; 32%N; 116%N; 111%N; 32%N; 103%N; 114%N; 97%N; 118%N; 105%N; 116%N; 121%N; 44%N; 32%N; 98%N; 121%N; 32%N; 97%N; 32%N; 111%N; 110%N; 101%N; 45%N; 112%N; 111%N; 117%N; 110%N; 100%N; 32%N; 109%N; 97%N; 115%N; 115%N; 44%N; 32%N; 111%N; 102%N; 32%N; 97%N; 114%N; 101%N; 97%N; 32%N; 111%N; 110%N; 101%N; 32%N; 115%N; 113%N; 117%N; 97%N; 114%N; 101%N; 32%N; 105%N; 110%N; 99%N; 104%N; 59%N; 32%N; 99%N; 111%N; 109%N; 109%N; 111%N; 110%N; 108%N; 121%N; 32%N; 114%N; 101%N; 102%N; 101%N; 114%N; 114%N; 101%N; 100%N; 32%N; 116%N; 111%N; 32%N; 97%N; 115%N; 32%N; 34%N; 112%N; 111%N; 117%N; 110%N; 100%N; 115%N; 32%N; 112%N; 101%N; 114%N; 32%N; 115%N; 113%N; 117%N; 97%N; 114%N; 101%N; 32%N; 105%N; 110%N; 99%N; 104%N; 34%N]) []];
  mkTag (u "unit") (u "") [
    mkTag (u "comment") (u "exact") [];
    mkTag (u "def") (u "kip/in^2") [];
    mkTag (u "aliases") (u "") [
      mkTag (u "symbol") (u "ksi") []];
    mkTag (u "definition") (u "unit of pressure representing the pressure exerted, due to gravity, by a 1000-pound mass, of area one square inch") []];
  mkTag (u "unit") (u "") [
    mkTag (u "comment") (u "exact") [];
    mkTag (u "def") (u "0.1 N/m^2") [];
    mkTag (u "aliases") (u "") [
      mkTag (u "name") (u "") [
        mkTag (u "singular") (u "barie") []];
      mkTag (u "name") (u "") [
        mkTag (u "singular") (u "barye") []]];
    mkTag (u "definition") (u "unit of pressure equal to one dyne per square centimeter") []];
  mkTag (u "unit") (u "") [
    mkTag (u "comment") (u "sound pressure level") [];
    mkTag (u "def") (u "lg(re 20e-6 Pa)") [];
    mkTag (u "aliases") (u "") [
      mkTag (u "symbol") (u "B_SPL") []];
    mkTag (u "definition") ([108%N; 111%N; 103%N; 97%N; 114%N; 105%N; 116%N; 104%N; 109%N; 105%N; 99%N; 32%N; 117%N; 110%N; 105%N; 116%N; 32%N; 117%N; 115%N; 101%N; 100%N; 32%N; 116%N; 111%N; 32%N; 99%N; 111%N; 109%N; 112%N; 97%N; 114%N; 101%N; 32%N; 116%N; 104%N; 101%N; 32%N; 115%N; 111%N; 117%N; 110%N; 100%N; 32%N; 112%N; 114%N; 101%N; 115%N; 115%N; 117%N; 114%N; 101%N; 32%N; 111%N; 102%N; 32%N; 97%N; 110%N; 32%N; 117%N; 110%N; 107%N; 110%N; 111%N; 119%N; 110%N; 32%N; 115%N; 111%N; 117%N; 110%N; 100%N; 32%N; 116%N; 111%N; 32%N; 97%N; 32%N; 115%N; 116%N; 97%N; 110%N; 100%N; 97%N; 114%N; 100%N; 32%N; 114%N; 101%N; 102%N; 101%N; 114%N; 101%N; 110%N; 99%N; 101%N; 32%N; 115%N; 111%N; 117%N; 110%N; 100%N; 32%N; 112%N; 114%N; 101%N; 115%N; 115%N; 117%N; 114%N; 101%N; 59%N; 32%N; 105%N; 115%N; 32%N; 116%N; 104%N; 101%N; 32%N; 98%N; 97%N; 115%N; 101%N; 32%N; 117%N; 110%N; 105%N; 116%N; 32%N; 102%N; 111%N; 114%N; 32%N; 34%N; 100%N; 66%N; 95%N; 83%N; 80%N; 76%N; 34%N; 44%N; 32%N; 97%N; 32%N; 109%N; 111%N; 114%N; 101%N; 32%N; 116%N; 121%N; 112%N; 105%N; 99%N; 97%N; 108%N; 32%N; 108%N; 111%N; 103%N; 97%N; 114%N; 105%N; 116%N; 104%N; 109%N; 105%N; 99%N; 32%N; 117%N; 110%N; 105%N; 116%N; 32%N; 102%N; 111%N; 114%N; 32%N; 109%N; 101%N; 97%N; 115%N; 117%N; 114%N; 105%N; 110%N; 103%N; 32%N; 115%N; 111%N; 117%N; 110%N; 100%N; 32%N; 112%N; 114%N; 101%N; 115%N; 115%N; 117%N; 114%N; 101%N; 32%N; 40%N; 116%N; 104%N; 101%N; 32%N; 83%N; 73%N; 32%N; 117%N; 110%N; 105%N; 116%N; 32%N; 102%N; 111%N; 114%N; 32%N; 115%N; 111%N; 117%N; 110%N; 100%N; 32%N; 112%N; 114%N; 101%N; 115%N; 115%N; 117%N; 114%N; 101%N; 32%N; 105%N; 115%N; 32%N; 112%N; 97%N; 115%N; 99%N; 97%N; 108%N; 41%N; 59%N; 32%N; 116%N; 104%N; 101%N; 32%N; 115%N; 116%N; 97%N; 110%N; 100%N; 97%N; 114%N; 100%N; 32%N; 114%N; 101%N; 102%N; 101%N; 114%N; 101%N; 110%N; 99%N; 101%N; 32%N; 115%N; 111%N; 117%N; 110%N; 100%N; 32%N; 112%N; 114%N; 101%N; 115%N; 115%N; 117%N; 114%N; 101%N; 32%N; 105%N; 110%N; 32%N; 97%N; 105%N; 114%N; 32%N; 111%N; 114%N; 32%N; 111%N; 116%N; 104%N; 101%N; 114%N; 32%N; 103%N; 97%N; 115%N; 101%N; 115%N; 32%N; 105%N; 115%N; 32%N; 50%N; 48%N; 32%N; 109%N; 105%N; 99%N; 114%N; 111%N; 80%N; 97%N; 115%N; 99%N; 97%N; 108%N; 44%N; 32%N; 119%N; 104%N; 105%N; 99%N; 104%N; 32%N; 105%N; 115%N; 32%N; 117%N; 115%N; 117%N; 97%N; 108%N; 108%N; 121%N; 32%N; 99%N; 111%N; 110%N; 115%N; 105%N; 100%N; 101%N; 114%N; 101%N; 100%N; 32%N; 116%N; 104%N; 101%N; 32%N; 116%N; 104%N; 114%N; 101%N; 115%N; 104%N; 111%N; 108%N; 100%N; 32%N; 111%N; 102%N; 32%N; 104%N; 117%N; 109%N; 97%N; 110%N; 32%N; 104%N; 101%N; 97%N; 114%N; 105%N; 110%N; 103%N; 32%N; 40%N; 97%N; 116%N; 32%N; 49%N; 32%N; 107%N; 72%N; 122%N; 41%N]) []];
  mkTag (u "unit") (u "") [
    mkTag (u "comment") (u "exact") [];
    mkTag (u "def") (u "1e-1 Pa.s") [];
    mkTag (u "aliases") (u "") [
      mkTag (u "name") (u "") [
        mkTag (u "singular") (u "poise") []]];
    mkTag (u "definition") (u "unit of dynamic viscosity, corresponding to 0.1 pascal-second (pascal-second: a fluid placed between two plates, when one plate is pushed sideways with a shear stress of one pascal, moves a distance equal to the thickness of the layer between the plates in one second)") []];
  mkTag (u "unit") (u "") [
    mkTag (u "comment") (u "exact") [];
    mkTag (u "def") (u "1e-4 m^2/s") [];
    mkTag (u "aliases") (u "") [
      mkTag (u "name") (u "") [
        mkTag (u "singular") (u "stokes") []];
      mkTag (u "symbol") (u "St") []];
    mkTag (u "definition") (u "unit of kinematic viscosity, measuring the ratio of the dynamic viscosity to the density of the fluid; water at 20 degrees C has a kinematic viscosity about 100 stokes, or more cmomonly, 1 cSt") []];
  mkTag (u "unit") (u "") [
    mkTag (u "comment") (u "exact") [];
    mkTag (u "def") (u "10/(Pa.s)") [];
    mkTag (u "aliases") (u "") [
      mkTag (u "name") (u "") [
        mkTag (u "singular") (u "rhe") []]];
    mkTag (u "definition") (u "unit of fluidity (reciprocal of velocity), measured in reciprocal poise") []];
  mkTag (u "unit") (u "") [
    mkTag (u "comment") (u "exact") [];
    mkTag (u "def") (u "1e-7 J") [];
    mkTag (u "aliases") (u "") [
      mkTag (u "name") (u "") [
        mkTag (u "singular") (u "erg") []]];
    mkTag (u "definition") (u "unit of work, equal to the amount of work done by a force of one dyne exerted for a distance of one centimeter (in CGS base units, one gram centimeter-squared per second-squared)") []];
  mkTag (u "unit") (u "") [
    mkTag (u "comment") (u "exact") [];
    mkTag (u "def") (u "1.05505585262e3 J") [];
    mkTag (u "aliases") (u "") [
      mkTag (u "name") (u "") [
        mkTag (u "singular") (u "IT_Btu") [];
        mkTag (u "plural") (u "IT_Btus") []];
      mkTag (u "name") (u "") [
        mkTag (u "singular") (u "Btu") [];
        mkTag (u "plural") (u "Btus") []]];
    mkTag (u "definition") (u "unit of energy, equal to the energy needed to cool or heat one pound of water by one degree F; this uses the International Steam Table (IT) calorie , defined by the Fifth International Conference on the properties of Steam (1956)") []];
  mkTag (u "unit") (u "") [
    mkTag (u "comment") (u "exact (reference NIST Guide to SI Units)") [];
    mkTag (u "def") (u "1.05506e8 J") [];
    mkTag (u "aliases") (u "") [
      mkTag (u "name") (u "") [
        mkTag (u "singular") (u "EC_therm") []]];
    mkTag (u "definition") (u "unit of energy legally defined by the Council Directive of 20 December 1979, Council of the European Communities (now the European Union, EU);.roughly equal to 100,000 IT_Btu") []];
  mkTag (u "unit") (u "") [
    mkTag (u "comment") (u "exact") [];
    mkTag (u "def") (u "4.184000 J") [];
    mkTag (u "aliases") (u "") [
      mkTag (u "name") (u "") [
        mkTag (u "singular") (u "thermochemical_calorie") []]];
    mkTag (u "definition") (u "unit of heat energy defined as 4.184 Joules exactly (International Standard ISO 31-4: Quantities and units, Part 4: Heat); approximately the energy needed to increase the temperature of 1 gram of water by 1 C") []];
  mkTag (u "unit") (u "") [
    mkTag (u "comment") (u "exact") [];
    mkTag (u "def") (u "4.1868 J") [];
    mkTag (u "aliases") (u "") [
      mkTag (u "name") (u "") [
        mkTag (u "singular") (u "IT_calorie") []];
      mkTag (u "name") (u "") [
        mkTag (u "singular") (u "calorie") []];
      mkTag (u "symbol") (u "cal") []];
    mkTag (u "definition") (u "unit of heat energy used in thermochemistry, the International Steam Table (IT) calorie defined by the Fifth International Conference on the properties of Steam (1956)") []];
  mkTag (u "unit") (u "") [
    mkTag (u "comment") (u "by definition") [];
    mkTag (u "def") (u "4.184 MJ/kg") [];
    mkTag (u "aliases") (u "") [
      mkTag (u "name") (u "") [
        mkTag (u "singular") (u "TNT") [];
        mkTag (u "noplural") (u "") []]];
    mkTag (u "definition") (u "unit of energy; approximately the energy released by the detonation of a given amount of mass of TNT") []];
  mkTag (u "unit") (u "") [
    mkTag (u "comment") (u "by definition") [];
    mkTag (u "def") (u "4.184e9 J") [];
    mkTag (u "aliases") (u "") [
      mkTag (u "name") (u "") [
        mkTag (u "singular") (u "ton_TNT") [];
        mkTag (u "plural") (u "tons_TNT") []]];
    mkTag (u "definition") (u "unit of energy; approximately the energy released by the detonation of a 1000 kilograms of TNT") []];
  mkTag (u "unit") (u "") [
    mkTag (u "comment") (u "exact") [];
    mkTag (u "def") (u "1.054804e8 J") [];
    mkTag (u "aliases") (u "") [
      mkTag (u "name") (u "") [
        mkTag (u "singular") (u "US_therm") []];
      mkTag (u "name") (u "") [
        mkTag (u "singular") (u "therm") []];
      mkTag (u "symbol") (u "thm") []];
    mkTag (u "definition") (u "unit of energy legally defined in the U.S. Federal Register of July 27, 1968, and the legal unit used by the U.S. natural gas industry") []];
  mkTag (u "unit") (u "") [
    mkTag (u "comment") (u "exact") [];
    mkTag (u "def") (u "watt.hour") [];
    mkTag (u "aliases") (u "") [
      mkTag (u "name") (u "") [
        mkTag (u "singular") (u "watthour") []]];
    mkTag (u "definition") (u "unit of energy equal to the product of the power in watts and the time in hours (if the energy is being transmitted or used at a constant rate (power) over a period of time); one watt is equal to 1 Joule/second") []];
  mkTag (u "unit") (u "") [
    mkTag (u "comment") (u "exact") [];
    mkTag (u "def") (u "1e9 eV") [];
    mkTag (u "aliases") (u "") [
      mkTag (u "symbol") (u "bev") []];
    mkTag (u "definition") (u "unit of energy corresponding to 1 billion electron volts (eV)") []];
  mkTag (u "unit") (u "") [
    mkTag (u "comment") (u "exact") [];
    mkTag (u "def") (u "V.A") [];
    mkTag (u "aliases") (u "") [
      mkTag (u "name") (u "") [
        mkTag (u "singular") (u "voltampere") []];
      mkTag (u "symbol") (u "VA") []];
    mkTag (u "definition") (u "unit of electric power equal to the product of one volt and one ampere, equivalent to one watt for direct current systems and a unit of apparent power for alternating current systems") []];
  mkTag (u "unit") (u "") [
    mkTag (u "def") (u "9.80950e3 W") [];
    mkTag (u "aliases") (u "") [
      mkTag (u "name") (u "") [
        mkTag (u "singular") (u "boiler_horsepower") []]];
    mkTag (u "definition") (u "unit of power equal to the power required to evaporate 34.5 lb of fresh water at 212 degrees F in one hour; describes a boiler's capacity to deliver steam to a steam engine") []]
]%list.

Definition db_part6 : list tag := [
  mkTag (u "unit") (u "") [
    mkTag (u "comment") (u "shaft_horsepower is a unit of power as delivered by a drive shaft at its output (e.g., of a ship, aircraft engine, or helicopter rotor; typically not automobiles due to drive train losses)") [];
    mkTag (u "def") (u "7.456999e2 W") [];
    mkTag (u "aliases") (u "") [
      mkTag (u "name") (u "") [
        mkTag (u "singular") (u "shaft_horsepower") []];
      mkTag (u "name") (u "") [
        mkTag (u "singular") (u "horsepower") []];
      mkTag (u "symbol") (u "hp") []];
    mkTag (u "definition") (u "unit of power originally corresponding to the estimated typical power of draft horses, calculated as lifting 33000 pounds one foot in one minute (550 foot-pounds/second)") []];
  mkTag (u "unit") (u "") [
    mkTag (u "def") (u "7.35499e2 W") [];
    mkTag (u "aliases") (u "") [
      mkTag (u "name") (u "") [
        mkTag (u "singular") (u "metric_horsepower") []]];
    mkTag (u "definition") (u "unit of power corresponding to a calculation of 75 kilogram-meters/second") []];
  mkTag (u "unit") (u "") [
    mkTag (u "comment") (u "exact") [];
    mkTag (u "def") (u "7.460000e2 W") [];
    mkTag (u "aliases") (u "") [
      mkTag (u "name") (u "") [
        mkTag (u "singular") (u "electric_horsepower") []]];
    mkTag (u "definition") (u "unit of power defined in the International System of Units as exactly 746 W; generally used for power used by electrical machines") []];
  mkTag (u "unit") (u "") [
    mkTag (u "def") (u "7.46043e2 W") [];
    mkTag (u "aliases") (u "") [
      mkTag (u "name") (u "") [
        mkTag (u "singular") (u "water_horsepower") []]];
    mkTag (u "definition") ([117%N; 110%N; 105%N; 116%N; 32%N; 111%N; 102%N; 32%N; 112%N; 111%N; 119%N; 101%N; 114%N; 32%N; 117%N; 115%N; 101%N; 100%N; 32%N; 105%N; 110%N; 32%N; 116%N; 104%N; 101%N; 32%N; 85%N; 46%N; 83%N; 46%N; 32%N; 112%N; 114%N; 105%N; 109%N; 97%N; 114%N; 105%N; 108%N; 121%N; 32%N; 105%N; 110%N; 32%N; 114%N; 97%N; 116%N; 105%N; 110%N; 103%N; 32%N; 112%N; 117%N; 109%N; 112%N; 115%N; 59%N; 32%N; 99%N; 97%N; 108%N; 99%N; 117%N; 108%N; 97%N; 116%N; 101%N; 100%N; 32%N; 97%N; 115%N; 32%N; 112%N; 117%N; 109%N; 112%N; 32%N; 99%N; 97%N; 112%N; 97%N; 99%N; 105%N; 116%N; 121%N; 32%N; 81%N; 32%N; 40%N; 103%N; 97%N; 108%N; 108%N; 111%N; 110%N; 115%N; 32%N; 112%N; 101%N; 114%N; 32%N; 109%N; 105%N; 110%N; 117%N; 116%N; 101%N; 41%N; 32%N; 116%N; 105%N; 109%N; 101%N; 115%N; 32%N; 112%N; 117%N; 109%N; 112%N; 32%N; 112%N; 114%N; 101%N; 115%N; 115%N; 117%N; 114%N; 101%N; 32%N; 40%N; 34%N; 104%N; 101%N; 97%N; 100%N; 34%N; 41%N; 32%N; 111%N; 102%N; 32%N; 80%N; 32%N; 40%N; 102%N; 101%N; 101%N; 116%N; 32%N; 111%N; 102%N; 32%N; 104%N; 101%N; 97%N; 100%N; 41%N; 44%N; 32%N; 100%N; 105%N; 118%N; 105%N; 100%N; 101%N; 100%N; 32%N; 98%N; 121%N; 32%N; 51%N; 57%N; 53%N; 54%N; 32%N; 119%N; 97%N; 116%N; 101%N; 114%N; 32%N; 104%N; 111%N; 114%N; 115%N; 101%N; 112%N; 111%N; 119%N; 101%N; 114%N; 59%N; 32%N; 116%N; 104%N; 101%N; 32%N; 99%N; 97%N; 108%N; 99%N; 117%N; 108%N; 97%N; 116%N; 105%N; 111%N; 110%N; 32%N; 97%N; 115%N; 115%N; 117%N; 109%N; 101%N; 115%N; 32%N; 119%N; 97%N; 116%N; 101%N; 114%N; 32%N; 100%N; 101%N; 110%N; 115%N; 105%N; 116%N; 121%N; 32%N; 105%N; 115%N; 32%N; 56%N; 32%N; 49%N; 47%N; 51%N; 32%N; 112%N; 111%N; 117%N; 110%N; 100%N; 115%N; 32%N; 112%N; 101%N; 114%N; 32%N; 85%N; 46%N; 83%N; 46%N; 32%N; 103%N; 97%N; 108%N; 108%N; 111%N; 110%N; 44%N; 32%N; 119%N; 104%N; 105%N; 99%N; 104%N; 32%N; 105%N; 115%N; 32%N; 110%N; 111%N; 116%N; 32%N; 101%N; 120%N; 97%N; 99%N; 116%N; 46%N]) []];
  mkTag (u "unit") (u "") [
    mkTag (u "def") (u "7.4570e2 W") [];
    mkTag (u "aliases") (u "") [
      mkTag (u "name") (u "") [
        mkTag (u "singular") (u "UK_horsepower") []]];
    mkTag (u "definition") (u "unit of power originally corresponding to the estimated typical power of draft horses, calculated as lifting 33000 pounds one foot in one minute (550 foot-pounds/second), as calculated/specified in the United Kingdom") []];
  mkTag (u "unit") (u "") [
    mkTag (u "def") (u "12000 Btu/hr") [];
    mkTag (u "aliases") (u "") [
      mkTag (u "name") (u "") [
        mkTag (u "singular") (u "refrigeration_ton") []];
      mkTag (u "name") (u "") [
        mkTag (u "singular") (u "ton_of_refrigeration") [];
        mkTag (u "plural") (u "tons_of_refrigeration") []]];
    mkTag (u "definition") (u "unit of power describing the heat-extraction capacity of cooling equipment; defined as the heat absorbed by melting 1 short ton of pure ice at 0 degrees C in 24 hours") []];
  mkTag (u "unit") (u "") [
    mkTag (u "def") (u "lg(re 1 W)") [];
    mkTag (u "aliases") (u "") [
      mkTag (u "symbol") (u "BW") []];
    mkTag (u "definition") (u "unit of power in decibel scale, referenced to 1 watt; the power in bel-watts is equal to 100 times the base 10 logarithm of the power in watts (making decibel-watt, the more common term, 10 times the base 10 log of the power in watts)") []];
  mkTag (u "unit") (u "") [
    mkTag (u "def") (u "lg(re 1 mW)") [];
    mkTag (u "aliases") (u "") [
      mkTag (u "symbol") (u "Bm") []];
    mkTag (u "definition") (u "unit of power in decibel scale, referenced to 1 milliwatt; the power in bel-milliwatts is equal to 100 times the base 10 logarithm of the power in milliwatts (making decibel-milliwatt, the more common term, 10 times the base 10 log of the power in milliwatts)") []];
  mkTag (u "unit") (u "") [
    mkTag (u "def") (u "1.55e-1 K.m^2/W") [];
    mkTag (u "aliases") (u "") [
      mkTag (u "name") (u "") [
        mkTag (u "singular") (u "clo") []]];
    mkTag (u "definition") (u "unit of thermal resistance used in describing the insulating value of clothing; the amount of thermal resistance needed to maintain in comfort a resting subject in a normally ventilated room (air movement 10 cm/sec) at a temperature of 20 degrees C and a humidity less than 50%") []];
  mkTag (u "unit") (u "") [
    mkTag (u "def") (u "10 A") [];
    mkTag (u "aliases") (u "") [
      mkTag (u "name") (u "") [
        mkTag (u "singular") (u "abampere") []]];
    mkTag (u "definition") (u "basic unit of electricity in the electromagnetic CGS system of units") []];
  mkTag (u "unit") (u "") [
    mkTag (u "def") (u "7.957747e-1 A") [];
    mkTag (u "aliases") (u "") [
      mkTag (u "name") (u "") [
        mkTag (u "singular") (u "gilbert") []]];
    mkTag (u "definition") (u "unit of electricity/magnetism") []];
  mkTag (u "unit") (u "") [
    mkTag (u "def") (u "3.335640e-10 A") [];
    mkTag (u "aliases") (u "") [
      mkTag (u "name") (u "") [
        mkTag (u "singular") (u "statampere") []]];
    mkTag (u "definition") (u "unit of electricity/magnetism") []];
  mkTag (u "unit") (u "") [
    mkTag (u "def") (u "10 A") [];
    mkTag (u "aliases") (u "") [
      mkTag (u "name") (u "") [
        mkTag (u "singular") (u "biot") []]];
    mkTag (u "definition") (u "basic unit of electricity in the electromagnetic CGS system of units (same as abampere), named after Jean-Baptiste Biot") []];
  mkTag (u "unit") (u "") [
    mkTag (u "comment") (u "exact") [];
    mkTag (u "def") (u "1e9 F") [];
    mkTag (u "aliases") (u "") [
      mkTag (u "name") (u "") [
        mkTag (u "singular") (u "abfarad") []]];
    mkTag (u "definition") (u "unit of electricity/magnetism") []];
  mkTag (u "unit") (u "") [
    mkTag (u "comment") (u "exact") [];
    mkTag (u "def") (u "1e-9 H") [];
    mkTag (u "aliases") (u "") [
      mkTag (u "name") (u "") [
        mkTag (u "singular") (u "abhenry") []]];
    mkTag (u "definition") (u "unit of electricity/magnetism") []];
  mkTag (u "unit") (u "") [
    mkTag (u "comment") (u "exact") [];
    mkTag (u "def") (u "1e9 S") [];
    mkTag (u "aliases") (u "") [
      mkTag (u "name") (u "") [
        mkTag (u "singular") (u "abmho") []]];
    mkTag (u "definition") (u "unit of electricity/magnetism") []];
  mkTag (u "unit") (u "") [
    mkTag (u "comment") (u "exact") [];
    mkTag (u "def") (u "1e-9 ohm") [];
    mkTag (u "aliases") (u "") [
      mkTag (u "name") (u "") [
        mkTag (u "singular") (u "abohm") []]];
    mkTag (u "definition") (u "unit of electricity/magnetism") []];
  mkTag (u "unit") (u "") [
    mkTag (u "comment") (u "exact") [];
    mkTag (u "def") (u "1e-8 V") [];
    mkTag (u "aliases") (u "") [
      mkTag (u "name") (u "") [
        mkTag (u "singular") (u "abvolt") []]];
    mkTag (u "definition") (u "unit of electricity/magnetism") []];
  mkTag (u "unit") (u "") [
    mkTag (u "def") (u "1.602176487e-19 C") [];
    mkTag (u "aliases") (u "") [
      mkTag (u "symbol") (u "e") []];
    mkTag (u "definition") (u "unit of electricity/magnetism") []];
  mkTag (u "unit") (u "") [
    mkTag (u "def") (u "9.64957e4 C") [];
    mkTag (u "aliases") (u "") [
      mkTag (u "name") (u "") [
        mkTag (u "singular") (u "chemical_faraday") []]];
    mkTag (u "definition") (u "unit of electricity/magnetism") []];
  mkTag (u "unit") (u "") [
    mkTag (u "def") (u "9.65219e4 C") [];
    mkTag (u "aliases") (u "") [
      mkTag (u "name") (u "") [
        mkTag (u "singular") (u "physical_faraday") []]];
    mkTag (u "definition") (u "unit of electricity/magnetism") []];
  mkTag (u "unit") (u "") [
    mkTag (u "def") (u "9.648531e4 C") [];
    mkTag (u "aliases") (u "") [
      mkTag (u "name") (u "") [
        mkTag (u "singular") (u "C12_faraday") []];
      mkTag (u "name") (u "") [
        mkTag (u "singular") (u "faraday") []]];
    mkTag (u "definition") (u "unit of electricity/magnetism") []];
  mkTag (u "unit") (u "") [
    mkTag (u "comment") (u "exact") [];
    mkTag (u "def") (u "1e-9 T") [];
    mkTag (u "aliases") (u "") [
      mkTag (u "name") (u "") [
        mkTag (u "singular") (u "gamma") []]];
    mkTag (u "definition") (u "unit of electricity/magnetism") []];
  mkTag (u "unit") (u "") [
    mkTag (u "comment") (u "exact") [];
    mkTag (u "def") (u "1e-4 T") [];
    mkTag (u "aliases") (u "") [
      mkTag (u "name") (u "") [
        mkTag (u "singular") (u "gauss") []]];
    mkTag (u "definition") (u "unit of electricity/magnetism") []];
  mkTag (u "unit") (u "") [
    mkTag (u "comment") (u "exact") [];
    mkTag (u "def") (u "1e-8 Wb") [];
    mkTag (u "aliases") (u "") [
      mkTag (u "name") (u "") [
        mkTag (u "singular") (u "maxwell") []]];
    mkTag (u "definition") (u "unit of electricity/magnetism") []];
  mkTag (u "unit") (u "") [
    mkTag (u "def") (u "7.957747e1 A/m") [];
    mkTag (u "aliases") (u "") [
      mkTag (u "name") (u "") [
        mkTag (u "singular") (u "oersted") []];
      mkTag (u "symbol") (u "Oe") []];
    mkTag (u "definition") (u "unit of electricity/magnetism") []];
  mkTag (u "unit") (u "") [
    mkTag (u "def") (u "3.335640e-10 C") [];
    mkTag (u "aliases") (u "") [
      mkTag (u "name") (u "") [
        mkTag (u "singular") (u "statcoulomb") []]];
    mkTag (u "definition") (u "unit of electricity/magnetism") []];
  mkTag (u "unit") (u "") [
    mkTag (u "def") (u "1.112650e-12 F") [];
    mkTag (u "aliases") (u "") [
      mkTag (u "name") (u "") [
        mkTag (u "singular") (u "statfarad") []]];
    mkTag (u "definition") (u "unit of electricity/magnetism") []];
  mkTag (u "unit") (u "") [
    mkTag (u "def") (u "8.987554e11 H") [];
    mkTag (u "aliases") (u "") [
      mkTag (u "name") (u "") [
        mkTag (u "singular") (u "stathenry") []]];
    mkTag (u "definition") (u "unit of electricity/magnetism") []];
  mkTag (u "unit") (u "") [
    mkTag (u "def") (u "1.112650e-12 S") [];
    mkTag (u "aliases") (u "") [
      mkTag (u "name") (u "") [
        mkTag (u "singular") (u "statmho") []]];
    mkTag (u "definition") (u "unit of electricity/magnetism") []];
  mkTag (u "unit") (u "") [
    mkTag (u "def") (u "8.987554e11 ohm") [];
    mkTag (u "aliases") (u "") [
      mkTag (u "name") (u "") [
        mkTag (u "singular") (u "statohm") []]];
    mkTag (u "definition") (u "unit of electricity/magnetism") []];
  mkTag (u "unit") (u "") [
    mkTag (u "def") (u "2.997925e2 V") [];
    mkTag (u "aliases") (u "") [
      mkTag (u "name") (u "") [
        mkTag (u "singular") (u "statvolt") []]];
    mkTag (u "definition") (u "unit of electricity/magnetism") []];
  mkTag (u "unit") (u "") [
    mkTag (u "def") (u "1.256637e-7 Wb") [];
    mkTag (u "aliases") (u "") [
      mkTag (u "name") (u "") [
        mkTag (u "singular") (u "unit_pole") []]];
    mkTag (u "definition") (u "unit of electricity/magnetism") []];
  mkTag (u "unit") (u "") [
    mkTag (u "def") (u "lg(re 1 V)") [];
    mkTag (u "aliases") (u "") [
      mkTag (u "symbol") (u "BV") []];
    mkTag (u "definition") (u "unit of electricity/magnetism") []];
  mkTag (u "unit") (u "") [
    mkTag (u "comment") (u "rms voltage") [];
    mkTag (u "def") (u "lg(re 0.775 V)") [];
    mkTag (u "aliases") (u "") [
      mkTag (u "symbol") (u "Bv") []];
    mkTag (u "definition") (u "unit of electricity/magnetism") []];
  mkTag (u "unit") (u "") [
    mkTag (u "def") (u "lg(re 1e-6 V)") [];
    mkTag (u "aliases") (u "") [
      mkTag (u "symbol") (u "BµV") []];
    mkTag (u "definition") (u "unit of electricity/magnetism") []];
  mkTag (u "unit") (u "") [
    mkTag (u "def") (u "K/1.8") [];
    mkTag (u "aliases") (u "") [
      mkTag (u "symbol") (u "°R") [];
      mkTag (u "name") (u "") [
        mkTag (u "singular") (u "degree_rankine") [];
        mkTag (u "plural") (u "degrees_rankine") []];
      mkTag (u "name") (u "") [
        mkTag (u "singular") (u "degreeR") [];
        mkTag (u "plural") (u "degreesR") []];
      mkTag (u "name") (u "") [
        mkTag (u "singular") (u "degree_R") [];
        mkTag (u "plural") (u "degrees_R") []];
      mkTag (u "name") (u "") [
        mkTag (u "singular") (u "degR") [];
        mkTag (u "plural") (u "degsR") []];
      mkTag (u "name") (u "") [
        mkTag (u "singular") (u "deg_R") [];
        mkTag (u "plural") (u "degs_R") []]];
    mkTag (u "definition") (u "unit of thermodynamic temperature") []];
  mkTag (u "unit") (u "") [
    mkTag (u "def") (u "°R @ 459.67") [];
    mkTag (u "aliases") (u "") [
      mkTag (u "symbol") (u "°F") [];
      mkTag (u "symbol") (u "℉") [];
      mkTag (u "name") (u "") [
        mkTag (u "singular") (u "fahrenheit") []];
      mkTag (u "name") (u "") [
        mkTag (u "singular") (u "degree_fahrenheit") [];
        mkTag (u "plural") (u "degrees_fahrenheit") []];
      mkTag (u "name") (u "") [
        mkTag (u "singular") (u "degreeF") [];
        mkTag (u "plural") (u "degreesF") []];
      mkTag (u "name") (u "") [
        mkTag (u "singular") (u "degree_F") [];
        mkTag (u "plural") (u "degrees_F") []];
      mkTag (u "name") (u "") [
        mkTag (u "singular") (u "degF") [];
        mkTag (u "plural") (u "degsF") []];
      mkTag (u "name") (u "") [
        mkTag (u "singular") (u "deg_F") [];
        mkTag (u "plural") (u "degs_F") []]];
    mkTag (u "definition") (u "unit of thermodynamic temperature") []];
  mkTag (u "unit") (u "") [
    mkTag (u "def") (u "1.076391e-1 lx") [];
    mkTag (u "aliases") (u "") [
      mkTag (u "name") (u "") [
        mkTag (u "singular") (u "footcandle") []]];
    mkTag (u "definition") (u "unit of illumination") []];
  mkTag (u "unit") (u "") [
    mkTag (u "comment") (u "exact") [];
    mkTag (u "def") (u "3.426259 cd/m^2") [];
    mkTag (u "aliases") (u "") [
      mkTag (u "name") (u "") [
        mkTag (u "singular") (u "footlambert") []]];
    mkTag (u "definition") (u "unit of illumination") []]
]%list.

Definition db_part7 : list tag := [
  mkTag (u "unit") (u "") [
    mkTag (u "comment") (u "exact") [];
    mkTag (u "def") (u "(1e4/pi) cd/m^2") [];
    mkTag (u "aliases") (u "") [
      mkTag (u "name") (u "") [
        mkTag (u "singular") (u "lambert") []]];
    mkTag (u "definition") (u "unit of illumination") []];
  mkTag (u "unit") (u "") [
    mkTag (u "comment") (u "exact") [];
    mkTag (u "def") (u "1e4 cd/m^2") [];
    mkTag (u "aliases") (u "") [
      mkTag (u "name") (u "") [
        mkTag (u "singular") (u "stilb") []];
      mkTag (u "symbol") (u "sb") []];
    mkTag (u "definition") (u "unit of illumination") []];
  mkTag (u "unit") (u "") [
    mkTag (u "comment") (u "exact") [];
    mkTag (u "def") (u "1e4 lm/m^2") [];
    mkTag (u "aliases") (u "") [
      mkTag (u "name") (u "") [
        mkTag (u "singular") (u "phot") []];
      mkTag (u "symbol") (u "ph") []];
    mkTag (u "definition") (u "unit of illumination") []];
  mkTag (u "unit") (u "") [
    mkTag (u "comment") (u "exact") [];
    mkTag (u "def") (u "1 cd/m^2") [];
    mkTag (u "aliases") (u "") [
      mkTag (u "name") (u "") [
        mkTag (u "singular") (u "nit") []];
      mkTag (u "symbol") (u "nt") []];
    mkTag (u "definition") (u "unit of illumination") []];
  mkTag (u "unit") (u "") [
    mkTag (u "comment") (u "exact") [];
    mkTag (u "def") (u "4.184000e4 J/m^2") [];
    mkTag (u "aliases") (u "") [
      mkTag (u "name") (u "") [
        mkTag (u "singular") (u "langley") []]];
    mkTag (u "definition") (u "unit of illumination") []];
  mkTag (u "unit") (u "") [
    mkTag (u "comment") (u "exact") [];
    mkTag (u "def") (u "cd/(pi m^2)") [];
    mkTag (u "aliases") (u "") [
      mkTag (u "name") (u "") [
        mkTag (u "singular") (u "blondel") []];
      mkTag (u "name") (u "") [
        mkTag (u "singular") (u "apostilb") []]];
    mkTag (u "definition") (u "unit of illumination") []];
  mkTag (u "unit") (u "") [
    mkTag (u "comment") (u "exact") [];
    mkTag (u "def") (u "100/m") [];
    mkTag (u "aliases") (u "") [
      mkTag (u "name") (u "") [
        mkTag (u "singular") (u "kayser") []]];
    mkTag (u "definition") (u "") []];
  mkTag (u "unit") (u "") [
    mkTag (u "comment") (u "exact") [];
    mkTag (u "def") (u "gravity") [];
    mkTag (u "aliases") (u "") [
      mkTag (u "name") (u "") [
        mkTag (u "singular") (u "geopotential") []];
      mkTag (u "name") (u "") [
        mkTag (u "singular") (u "dynamic") []];
      mkTag (u "symbol") (u "gp") []];
    mkTag (u "definition") (u "") []];
  mkTag (u "unit") (u "") [
    mkTag (u "comment") (u "exact") [];
    mkTag (u "def") (u "2056 hours") [];
    mkTag (u "aliases") (u "") [
      mkTag (u "name") (u "") [
        mkTag (u "singular") (u "work_year") []]];
    mkTag (u "definition") (u "") []];
  mkTag (u "unit") (u "") [
    mkTag (u "comment") (u "exact") [];
    mkTag (u "def") (u "work_year/12") [];
    mkTag (u "aliases") (u "") [
      mkTag (u "name") (u "") [
        mkTag (u "singular") (u "work_month") []]];
    mkTag (u "definition") (u "") []];
  mkTag (u "unit") (u "") [
    mkTag (u "comment") (u "exact") [];
    mkTag (u "def") (u "1e-6 m^2 s^-1 K kg^-1") [];
    mkTag (u "aliases") (u "") [
      mkTag (u "name") (u "") [
        mkTag (u "singular") (u "potential_vorticity_unit") []];
      mkTag (u "symbol") (u "PVU") []];
    mkTag (u "definition") (u "") []];
  mkTag (u "unit") (u "") [
    mkTag (u "def") (u "1") [];
    mkTag (u "aliases") (u "") [
      mkTag (u "name") (u "") [
        mkTag (u "singular") (u "count") []]];
    mkTag (u "definition") (u "") []];
  mkTag (u "unit") (u "") [
    mkTag (u "def") (u "1") [];
    mkTag (u "aliases") (u "") [
      mkTag (u "name") (u "") [
        mkTag (u "singular") (u "bit") []]];
    mkTag (u "definition") (u "") []];
  mkTag (u "unit") (u "") [
    mkTag (u "def") (u "8") [];
    mkTag (u "aliases") (u "") [
      mkTag (u "name") (u "") [
        mkTag (u "singular") (u "octet") []];
      mkTag (u "name") (u "") [
        mkTag (u "singular") (u "byte") []]];
    mkTag (u "definition") (u "") []];
  mkTag (u "unit") (u "") [
    mkTag (u "def") (u "446.2 micromoles/meter^2") [];
    mkTag (u "aliases") (u "") [
      mkTag (u "name") (u "") [
        mkTag (u "singular") (u "dobson") []];
      mkTag (u "symbol") (u "DU") []];
    mkTag (u "definition") (u "") []];
  mkTag (u "unit") (u "") [
    mkTag (u "def") (u "1/avogadro_constant") [];
    mkTag (u "name") (u "") [
      mkTag (u "singular") (u "molecule") []];
    mkTag (u "aliases") (u "") [
      mkTag (u "name") (u "") [
        mkTag (u "singular") (u "molec") []];
      mkTag (u "name") (u "") [
        mkTag (u "singular") (u "nucleon") []];
      mkTag (u "name") (u "") [
        mkTag (u "singular") (u "nuc") []]];
    mkTag (u "definition") (u "") []]
]%list.

Definition db : tag := mkTag (u "unit-system") (u "")
  (db_part0 ++ db_part1 ++ db_part2 ++ db_part3 ++ db_part4 ++ db_part5 ++ db_part6 ++ db_part7)%list.
