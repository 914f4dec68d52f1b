(** * Composition of the named functional combinations (specification)
    Coefficients of the density functionals, of exact exchange ("EXX") and the values of the
    range-separation parameters, as published.  Nothing here refers to the library or to its
    model, apart from the names of the single functionals. *)
From Coq Require Import QArith List String.
Import ListNotations.
Local Open Scope string_scope.

Definition mixture := list (string * Q).
(** Three-parameter hybrid: Becke, J. Chem. Phys. 98, 5648 (1993);
    E = E_LSD + 0.20 (E_exact - E_LSD) + 0.72 dE_B88 + 0.81 dE_GGAC, in the form of Stephens et
    al., J. Phys. Chem. 98, 11623 (1994), for B3LYP: correlation 0.81 LYP + 0.19 VWN. *)
Definition b3 (corr : mixture) : mixture := ([("SLATERX", 0.80%Q); ("BECKECORRX", 0.72%Q)] ++ corr ++ [("EXX", 0.20%Q)])%list.
Definition compositions : list (string * mixture) :=
  [("lda", [("SLATERX", 1%Q); ("VWN5C", 1%Q)]);
   ("svwn", [("SLATERX", 1%Q); ("VWN5C", 1%Q)]);
   ("svwn5", [("SLATERX", 1%Q); ("VWN5C", 1%Q)]);
   ("svwn3", [("SLATERX", 1%Q); ("VWN3C", 1%Q)]);
   ("vwn", [("VWN5C", 1%Q)]); ("vwn5", [("VWN5C", 1%Q)]); ("vwn3", [("VWN3C", 1%Q)]);
   ("slater", [("SLATERX", 1%Q)]); ("ldax", [("SLATERX", 1%Q)]);
   ("becke", [("BECKECORRX", 1%Q)]);
   ("b88x", [("SLATERX", 1%Q); ("BECKECORRX", 1%Q)]);
   ("lyp", [("LYPC", 1%Q)]);
   ("blyp", [("BECKEX", 1%Q); ("LYPC", 1%Q)]);
   ("olyp", [("LYPC", 1%Q); ("OPTX", 1%Q)]);
   ("bp86", [("BECKEX", 1%Q); ("P86C", 1%Q)]);
   ("bpw91", [("BECKEX", 1%Q); ("PW91C", 1%Q)]);
   ("pbe", [("PBEX", 1%Q); ("PBEC", 1%Q)]);
   (* Adamo and Barone, J. Chem. Phys. 110, 6158 (1999) *)
   ("pbe0", [("PBEX", (3 # 4)%Q); ("PBEC", 1%Q); ("EXX", (1 # 4)%Q)]);
   (* Keal and Tozer, J. Chem. Phys. 119, 3015 (2003) *)
   ("kt1", [("SLATERX", 1%Q); ("KTX", (-0.006)%Q); ("VWN5C", 1%Q)]);
   ("kt2", [("SLATERX", 1.07173%Q); ("KTX", (-0.006)%Q); ("VWN5C", 0.576727%Q)]);
   (* Keal and Tozer, J. Chem. Phys. 121, 5654 (2004) *)
   ("kt3x", [("SLATERX", 1.092%Q); ("KTX", (-0.004)%Q); ("OPTXCORR", (-0.925452)%Q)]);
   ("kt3", [("SLATERX", 1.092%Q); ("KTX", (-0.004)%Q); ("OPTXCORR", (-0.925452)%Q); ("LYPC", 0.864409%Q)]);
   ("b3lyp", b3 [("LYPC", 0.81%Q); ("VWN5C", 0.19%Q)]);
   ("b3lyp-g", b3 [("LYPC", 0.81%Q); ("VWN3C", 0.19%Q)]);
   ("b3p86", b3 [("P86CORRC", 0.81%Q); ("VWN5C", 1%Q)]);
   ("b3p86-g", b3 [("P86CORRC", 0.81%Q); ("VWN3C", 1%Q)]);
   (* Becke, J. Chem. Phys. 107, 8554 (1997) *)
   ("b97", [("B97X", 1%Q); ("B97C", 1%Q); ("EXX", 0.1943%Q)]);
   (* Hamprecht, Cohen, Tozer and Handy, J. Chem. Phys. 109, 6264 (1998) *)
   ("b97-1", [("B97_1X", 1%Q); ("B97_1C", 1%Q); ("EXX", 0.21%Q)]);
   (* Wilson, Bradley and Tozer, J. Chem. Phys. 115, 9233 (2001) *)
   ("b97_2", [("B97_2X", 1%Q); ("B97_2C", 1%Q); ("EXX", 0.21%Q)]);
   (* Zhao and Truhlar, J. Chem. Phys. 125, 194101 (2006) *)
   ("m06l", [("M06LC", 1%Q); ("M06LX", 1%Q)]);
   (* Yanai, Tew and Handy, Chem. Phys. Lett. 393, 51 (2004); the attenuated exact exchange is
      left to the caller, who is told so by EXX = 1 together with the three parameters *)
   ("camb3lyp", [("CAM_ALPHA", 0.19%Q); ("CAM_BETA", 0.46%Q); ("RANGESEP_MU", 0.33%Q);
      ("BECKECAMX", 1%Q); ("VWN5C", 0.19%Q); ("LYPC", 0.81%Q); ("EXX", 1%Q)]);
   ("camcompx", [("BECKEX", 1%Q); ("BECKECAMX", (-1)%Q); ("CAM_ALPHA", 0.19%Q); ("CAM_BETA", 0.46%Q); ("RANGESEP_MU", 0.33%Q)]);
   ("ldaerf", [("LDAERFX", 1%Q); ("LDAERFC", 1%Q)]);
   ("hf", [("EXX", 1%Q)]);
   ("scan", [("SCANX", 1%Q); ("SCANC", 1%Q)]);
   ("rscan", [("RSCANX", 1%Q); ("RSCANC", 1%Q)]);
   ("rppscan", [("RPPSCANX", 1%Q); ("RPPSCANC", 1%Q)]);
   ("r2scan", [("R2SCANX", 1%Q); ("R2SCANC", 1%Q)]);
   ("r4scan", [("R4SCANX", 1%Q); ("R4SCANC", 1%Q)])].
(** Hybrid functionals of Zhao and Truhlar, Theor. Chem. Acc. 120, 215 (2008): 27% and 54% of
    exact exchange. *)
Definition minnesota_hybrids : list (string * mixture) :=
  [("m06", [("M06X", 1%Q); ("M06C", 1%Q); ("EXX", 0.27%Q)]);
   ("m06-2x", [("M06X2X", 1%Q); ("M06X2C", 1%Q); ("EXX", 0.54%Q)])].
(** The coefficient of a name in a mixture. *)
Definition coefficient (nm : string) (m : mixture) : option Q := option_map snd (find (fun p => String.eqb (fst p) nm) m).
