(* The input files which are part of the repository, /repo/examples/*.xml and
   /repo/tests/*.xml, as trees: element names, attributes and children in document order.
   The trees have been made from the files by a script; comments, white space between
   elements and the order of attributes (which is kept) have no meaning for the program. *)
From Coq Require Import String List.
From Verif Require Import ParserModel.
Import ListNotations.
Local Open Scope string_scope.
Local Open Scope list_scope.

(* /repo/examples/CSR.xml:1-41 *)
Definition x_CSR : node :=
 Node "teufel" [("description","Coherent synchrotron radiation from a homogeneous dipole"); ("author","Ulf Lehnert 29.6.2020")] [
  Node "calc" [("print","beam energy [eV] = "); ("var","E_beam"); ("eq","50.0e6")] [];
  Node "calc" [("print","gamma = "); ("var","gamma"); ("eq","E_beam/_mec2")] [];
  Node "calc" [("print","beta*gamma = "); ("var","betagamma"); ("eq","sqrt(gamma*gamma-1.0)")] [];
  Node "calc" [("print","beta = "); ("var","beta"); ("eq","sqrt(1.0-1.0/(gamma*gamma))")] [];
  Node "calc" [("print","charge [nC] = "); ("var","charge"); ("eq","-1.0")] [];
  Node "calc" [("print","r [m] = "); ("var","radius"); ("eq","0.3")] [];
  Node "lattice" [] [
   Node "background" [] [
    Node "calc" [("print","B*r [T m] = "); ("var","Brho"); ("eq","betagamma*_mec2/_c")] [];
    Node "calc" [("print","B [T] = "); ("var","By"); ("eq","Brho/radius")] [];
    Node "B" [("x","0.0"); ("y","By"); ("z","0.0")] []]];
  Node "beam" [] [
   Node "particle" [("gamma","gamma"); ("charge","1.0e-9*charge"); ("cmr","-1.0")] [
    Node "position" [("x","radius*(1.0-1.0/sqrt(2))"); ("y","0.0"); ("z","-radius/sqrt(2)")] [];
    Node "momentum" [("x","-1.0/sqrt(2)"); ("y","0.0"); ("z","1.0/sqrt(2)")] []]];
  Node "calc" [("print","tracking length [m] = "); ("var","total_L"); ("eq","radius*_pi/2.0")] [];
  Node "calc" [("print","tracking total time [s] = "); ("var","total_t"); ("eq","total_L/_c")] [];
  Node "calc" [("print","dt = "); ("var","dt"); ("eq","total_t/1000")] [];
  Node "tracking" [("method","Vay"); ("delta_t","dt"); ("n","1000")] [];
  Node "observer" [] [
   Node "calc" [("print","flight time [s] = "); ("var","tof"); ("eq","_pi/4.0*radius/(beta*_c)")] [];
   Node "calc" [("print","screen position z0 = "); ("var","z0"); ("eq","1.0")] [];
   Node "calc" [("print","screen center time t0 = "); ("var","tscreen"); ("eq","tof+z0/_c")] [];
   Node "screen" [("file","CSR_screen_1m.h5")] [
    Node "position" [("x","0.0"); ("y","0.0"); ("z","z0")] [];
    Node "hpitch" [("x","0.005"); ("y","0.0"); ("z","0.0"); ("n","41")] [];
    Node "vpitch" [("x","0.0"); ("y","0.005"); ("z","0.0"); ("n","41")] [];
    Node "time" [("t0","tscreen-0.02e-10"); ("dt","0.5e-14"); ("n","5000")] []]]].
(* /repo/examples/compton_backscattering_10P.xml:1-256 *)
Definition x_compton_backscattering_10P : node :=
 Node "teufel" [("description","Compton back-scattering of electromagnetic radiation off relativistic electrons"); ("author","Ulf Lehnert 19.5.2022")] [
  Node "calc" [("print","gamma = "); ("var","gamma"); ("eq","100.0")] [];
  Node "calc" [("print","beta = "); ("var","beta"); ("eq","sqrt(1.0-1.0/gamma^2)")] [];
  Node "calc" [("print","beam start from IP [m] = "); ("var","L_ip"); ("eq","1.0e-4")] [];
  Node "calc" [("print","seed wavelength [m] = "); ("var","lambda"); ("eq","1.0e-6")] [];
  Node "calc" [("print","seed frequency [Hz] = "); ("var","freq"); ("eq","_c/lambda")] [];
  Node "calc" [("print","seed photon energy [eV] = "); ("var","seed_E"); ("eq","_h*_c/_e/lambda")] [];
  Node "calc" [("print","back-scattered wavelength [m] = "); ("var","lambda_X"); ("eq","lambda/4.0/gamma^2")] [];
  Node "calc" [("print","back-scattered frequency [Hz] = "); ("var","freq_X"); ("eq","_c/lambda_X")] [];
  Node "calc" [("print","back-scattered photon energy [eV] = "); ("var","scat_E"); ("eq","_h*_c/_e/lambda_X")] [];
  Node "lattice" [] [
   Node "wave" [("name","seed"); ("type","packet")] [
    Node "position" [("x","0.0"); ("y","0.0"); ("z","0.0"); ("t","L_ip/(beta*_c)")] [];
    Node "calc" [("print","seed power [W] = "); ("var","P0"); ("eq","1e12")] [];
    Node "calc" [("print","Rayleigh range [m] = "); ("var","zR"); ("eq","1.0")] [];
    Node "calc" [("print","waist radius w0 [m] = "); ("var","w0"); ("eq","sqrt(lambda*zR/_pi)")] [];
    Node "calc" [("print","peak intensity I0 [W/m²] = "); ("var","I0"); ("eq","2.0*P0/(_pi*w0*w0)")] [];
    Node "calc" [("print","peak field E0 [V/m] = "); ("var","E0"); ("eq","sqrt(2*I0/_eps0/_c)")] [];
    Node "field" [("lambda","lambda"); ("ReA","E0"); ("ImA","0.0"); ("rayleigh","zR"); ("tau","5*lambda/_c")] []]];
  Node "beam" [] [
   Node "particle" [("gamma","gamma"); ("charge","-1.0e-10"); ("cmr","-1.0")] [
    Node "position" [("x","0.0"); ("y","0.0"); ("z","L_ip")] [];
    Node "momentum" [("x","0.0"); ("y","0.0"); ("z","-1.0")] []];
   Node "particle" [("gamma","gamma"); ("charge","-1.0e-10"); ("cmr","-1.0")] [
    Node "position" [("x","0.0"); ("y","0.0"); ("z","L_ip + lambda_X")] [];
    Node "momentum" [("x","0.0"); ("y","0.0"); ("z","-1.0")] []];
   Node "particle" [("gamma","gamma"); ("charge","-1.0e-10"); ("cmr","-1.0")] [
    Node "position" [("x","0.0"); ("y","0.0"); ("z","L_ip + 2*lambda_X")] [];
    Node "momentum" [("x","0.0"); ("y","0.0"); ("z","-1.0")] []];
   Node "particle" [("gamma","gamma"); ("charge","-1.0e-10"); ("cmr","-1.0")] [
    Node "position" [("x","0.0"); ("y","0.0"); ("z","L_ip + 3*lambda_X")] [];
    Node "momentum" [("x","0.0"); ("y","0.0"); ("z","-1.0")] []];
   Node "particle" [("gamma","gamma"); ("charge","-1.0e-10"); ("cmr","-1.0")] [
    Node "position" [("x","0.0"); ("y","0.0"); ("z","L_ip + 4*lambda_X")] [];
    Node "momentum" [("x","0.0"); ("y","0.0"); ("z","-1.0")] []];
   Node "particle" [("gamma","gamma"); ("charge","-1.0e-10"); ("cmr","-1.0")] [
    Node "position" [("x","0.0"); ("y","0.0"); ("z","L_ip + 5*lambda_X")] [];
    Node "momentum" [("x","0.0"); ("y","0.0"); ("z","-1.0")] []];
   Node "particle" [("gamma","gamma"); ("charge","-1.0e-10"); ("cmr","-1.0")] [
    Node "position" [("x","0.0"); ("y","0.0"); ("z","L_ip + 6*lambda_X")] [];
    Node "momentum" [("x","0.0"); ("y","0.0"); ("z","-1.0")] []];
   Node "particle" [("gamma","gamma"); ("charge","-1.0e-10"); ("cmr","-1.0")] [
    Node "position" [("x","0.0"); ("y","0.0"); ("z","L_ip + 7*lambda_X")] [];
    Node "momentum" [("x","0.0"); ("y","0.0"); ("z","-1.0")] []];
   Node "particle" [("gamma","gamma"); ("charge","-1.0e-10"); ("cmr","-1.0")] [
    Node "position" [("x","0.0"); ("y","0.0"); ("z","L_ip + 8*lambda_X")] [];
    Node "momentum" [("x","0.0"); ("y","0.0"); ("z","-1.0")] []];
   Node "particle" [("gamma","gamma"); ("charge","-1.0e-10"); ("cmr","-1.0")] [
    Node "position" [("x","0.0"); ("y","0.0"); ("z","L_ip + 9*lambda_X")] [];
    Node "momentum" [("x","0.0"); ("y","0.0"); ("z","-1.0")] []];
   Node "particle" [("gamma","gamma"); ("charge","-1.0e-10"); ("cmr","-1.0")] [
    Node "position" [("x","0.0"); ("y","0.0"); ("z","L_ip + 10*lambda_X")] [];
    Node "momentum" [("x","0.0"); ("y","0.0"); ("z","-1.0")] []];
   Node "particle" [("gamma","gamma"); ("charge","-1.0e-10"); ("cmr","-1.0")] [
    Node "position" [("x","0.0"); ("y","0.0"); ("z","L_ip + 11*lambda_X")] [];
    Node "momentum" [("x","0.0"); ("y","0.0"); ("z","-1.0")] []];
   Node "particle" [("gamma","gamma"); ("charge","-1.0e-10"); ("cmr","-1.0")] [
    Node "position" [("x","0.0"); ("y","0.0"); ("z","L_ip + 12*lambda_X")] [];
    Node "momentum" [("x","0.0"); ("y","0.0"); ("z","-1.0")] []];
   Node "particle" [("gamma","gamma"); ("charge","-1.0e-10"); ("cmr","-1.0")] [
    Node "position" [("x","0.0"); ("y","0.0"); ("z","L_ip + 13*lambda_X")] [];
    Node "momentum" [("x","0.0"); ("y","0.0"); ("z","-1.0")] []];
   Node "particle" [("gamma","gamma"); ("charge","-1.0e-10"); ("cmr","-1.0")] [
    Node "position" [("x","0.0"); ("y","0.0"); ("z","L_ip + 14*lambda_X")] [];
    Node "momentum" [("x","0.0"); ("y","0.0"); ("z","-1.0")] []];
   Node "particle" [("gamma","gamma"); ("charge","-1.0e-10"); ("cmr","-1.0")] [
    Node "position" [("x","0.0"); ("y","0.0"); ("z","L_ip + 15*lambda_X")] [];
    Node "momentum" [("x","0.0"); ("y","0.0"); ("z","-1.0")] []];
   Node "particle" [("gamma","gamma"); ("charge","-1.0e-10"); ("cmr","-1.0")] [
    Node "position" [("x","0.0"); ("y","0.0"); ("z","L_ip + 16*lambda_X")] [];
    Node "momentum" [("x","0.0"); ("y","0.0"); ("z","-1.0")] []];
   Node "particle" [("gamma","gamma"); ("charge","-1.0e-10"); ("cmr","-1.0")] [
    Node "position" [("x","0.0"); ("y","0.0"); ("z","L_ip + 17*lambda_X")] [];
    Node "momentum" [("x","0.0"); ("y","0.0"); ("z","-1.0")] []];
   Node "particle" [("gamma","gamma"); ("charge","-1.0e-10"); ("cmr","-1.0")] [
    Node "position" [("x","0.0"); ("y","0.0"); ("z","L_ip + 18*lambda_X")] [];
    Node "momentum" [("x","0.0"); ("y","0.0"); ("z","-1.0")] []];
   Node "particle" [("gamma","gamma"); ("charge","-1.0e-10"); ("cmr","-1.0")] [
    Node "position" [("x","0.0"); ("y","0.0"); ("z","L_ip + 19*lambda_X")] [];
    Node "momentum" [("x","0.0"); ("y","0.0"); ("z","-1.0")] []];
   Node "particle" [("gamma","gamma"); ("charge","-1.0e-10"); ("cmr","-1.0")] [
    Node "position" [("x","0.0"); ("y","0.0"); ("z","L_ip + 20*lambda_X")] [];
    Node "momentum" [("x","0.0"); ("y","0.0"); ("z","-1.0")] []];
   Node "particle" [("gamma","gamma"); ("charge","-1.0e-10"); ("cmr","-1.0")] [
    Node "position" [("x","0.0"); ("y","0.0"); ("z","L_ip + 21*lambda_X")] [];
    Node "momentum" [("x","0.0"); ("y","0.0"); ("z","-1.0")] []];
   Node "particle" [("gamma","gamma"); ("charge","-1.0e-10"); ("cmr","-1.0")] [
    Node "position" [("x","0.0"); ("y","0.0"); ("z","L_ip + 22*lambda_X")] [];
    Node "momentum" [("x","0.0"); ("y","0.0"); ("z","-1.0")] []];
   Node "particle" [("gamma","gamma"); ("charge","-1.0e-10"); ("cmr","-1.0")] [
    Node "position" [("x","0.0"); ("y","0.0"); ("z","L_ip + 23*lambda_X")] [];
    Node "momentum" [("x","0.0"); ("y","0.0"); ("z","-1.0")] []];
   Node "particle" [("gamma","gamma"); ("charge","-1.0e-10"); ("cmr","-1.0")] [
    Node "position" [("x","0.0"); ("y","0.0"); ("z","L_ip + 24*lambda_X")] [];
    Node "momentum" [("x","0.0"); ("y","0.0"); ("z","-1.0")] []];
   Node "particle" [("gamma","gamma"); ("charge","-1.0e-10"); ("cmr","-1.0")] [
    Node "position" [("x","0.0"); ("y","0.0"); ("z","L_ip + 25*lambda_X")] [];
    Node "momentum" [("x","0.0"); ("y","0.0"); ("z","-1.0")] []];
   Node "particle" [("gamma","gamma"); ("charge","-1.0e-10"); ("cmr","-1.0")] [
    Node "position" [("x","0.0"); ("y","0.0"); ("z","L_ip + 26*lambda_X")] [];
    Node "momentum" [("x","0.0"); ("y","0.0"); ("z","-1.0")] []];
   Node "particle" [("gamma","gamma"); ("charge","-1.0e-10"); ("cmr","-1.0")] [
    Node "position" [("x","0.0"); ("y","0.0"); ("z","L_ip + 27*lambda_X")] [];
    Node "momentum" [("x","0.0"); ("y","0.0"); ("z","-1.0")] []];
   Node "particle" [("gamma","gamma"); ("charge","-1.0e-10"); ("cmr","-1.0")] [
    Node "position" [("x","0.0"); ("y","0.0"); ("z","L_ip + 28*lambda_X")] [];
    Node "momentum" [("x","0.0"); ("y","0.0"); ("z","-1.0")] []];
   Node "particle" [("gamma","gamma"); ("charge","-1.0e-10"); ("cmr","-1.0")] [
    Node "position" [("x","0.0"); ("y","0.0"); ("z","L_ip + 29*lambda_X")] [];
    Node "momentum" [("x","0.0"); ("y","0.0"); ("z","-1.0")] []];
   Node "particle" [("gamma","gamma"); ("charge","-1.0e-10"); ("cmr","-1.0")] [
    Node "position" [("x","0.0"); ("y","0.0"); ("z","L_ip + 30*lambda_X")] [];
    Node "momentum" [("x","0.0"); ("y","0.0"); ("z","-1.0")] []];
   Node "particle" [("gamma","gamma"); ("charge","-1.0e-10"); ("cmr","-1.0")] [
    Node "position" [("x","0.0"); ("y","0.0"); ("z","L_ip + 31*lambda_X")] [];
    Node "momentum" [("x","0.0"); ("y","0.0"); ("z","-1.0")] []];
   Node "particle" [("gamma","gamma"); ("charge","-1.0e-10"); ("cmr","-1.0")] [
    Node "position" [("x","0.0"); ("y","0.0"); ("z","L_ip + 32*lambda_X")] [];
    Node "momentum" [("x","0.0"); ("y","0.0"); ("z","-1.0")] []];
   Node "particle" [("gamma","gamma"); ("charge","-1.0e-10"); ("cmr","-1.0")] [
    Node "position" [("x","0.0"); ("y","0.0"); ("z","L_ip + 33*lambda_X")] [];
    Node "momentum" [("x","0.0"); ("y","0.0"); ("z","-1.0")] []];
   Node "particle" [("gamma","gamma"); ("charge","-1.0e-10"); ("cmr","-1.0")] [
    Node "position" [("x","0.0"); ("y","0.0"); ("z","L_ip + 34*lambda_X")] [];
    Node "momentum" [("x","0.0"); ("y","0.0"); ("z","-1.0")] []];
   Node "particle" [("gamma","gamma"); ("charge","-1.0e-10"); ("cmr","-1.0")] [
    Node "position" [("x","0.0"); ("y","0.0"); ("z","L_ip + 35*lambda_X")] [];
    Node "momentum" [("x","0.0"); ("y","0.0"); ("z","-1.0")] []];
   Node "particle" [("gamma","gamma"); ("charge","-1.0e-10"); ("cmr","-1.0")] [
    Node "position" [("x","0.0"); ("y","0.0"); ("z","L_ip + 36*lambda_X")] [];
    Node "momentum" [("x","0.0"); ("y","0.0"); ("z","-1.0")] []];
   Node "particle" [("gamma","gamma"); ("charge","-1.0e-10"); ("cmr","-1.0")] [
    Node "position" [("x","0.0"); ("y","0.0"); ("z","L_ip + 37*lambda_X")] [];
    Node "momentum" [("x","0.0"); ("y","0.0"); ("z","-1.0")] []];
   Node "particle" [("gamma","gamma"); ("charge","-1.0e-10"); ("cmr","-1.0")] [
    Node "position" [("x","0.0"); ("y","0.0"); ("z","L_ip + 38*lambda_X")] [];
    Node "momentum" [("x","0.0"); ("y","0.0"); ("z","-1.0")] []];
   Node "particle" [("gamma","gamma"); ("charge","-1.0e-10"); ("cmr","-1.0")] [
    Node "position" [("x","0.0"); ("y","0.0"); ("z","L_ip + 39*lambda_X")] [];
    Node "momentum" [("x","0.0"); ("y","0.0"); ("z","-1.0")] []];
   Node "particle" [("gamma","gamma"); ("charge","-1.0e-10"); ("cmr","-1.0")] [
    Node "position" [("x","0.0"); ("y","0.0"); ("z","L_ip + 40*lambda_X")] [];
    Node "momentum" [("x","0.0"); ("y","0.0"); ("z","-1.0")] []];
   Node "particle" [("gamma","gamma"); ("charge","-1.0e-10"); ("cmr","-1.0")] [
    Node "position" [("x","0.0"); ("y","0.0"); ("z","L_ip + 41*lambda_X")] [];
    Node "momentum" [("x","0.0"); ("y","0.0"); ("z","-1.0")] []];
   Node "particle" [("gamma","gamma"); ("charge","-1.0e-10"); ("cmr","-1.0")] [
    Node "position" [("x","0.0"); ("y","0.0"); ("z","L_ip + 42*lambda_X")] [];
    Node "momentum" [("x","0.0"); ("y","0.0"); ("z","-1.0")] []];
   Node "particle" [("gamma","gamma"); ("charge","-1.0e-10"); ("cmr","-1.0")] [
    Node "position" [("x","0.0"); ("y","0.0"); ("z","L_ip + 43*lambda_X")] [];
    Node "momentum" [("x","0.0"); ("y","0.0"); ("z","-1.0")] []];
   Node "particle" [("gamma","gamma"); ("charge","-1.0e-10"); ("cmr","-1.0")] [
    Node "position" [("x","0.0"); ("y","0.0"); ("z","L_ip + 44*lambda_X")] [];
    Node "momentum" [("x","0.0"); ("y","0.0"); ("z","-1.0")] []];
   Node "particle" [("gamma","gamma"); ("charge","-1.0e-10"); ("cmr","-1.0")] [
    Node "position" [("x","0.0"); ("y","0.0"); ("z","L_ip + 45*lambda_X")] [];
    Node "momentum" [("x","0.0"); ("y","0.0"); ("z","-1.0")] []];
   Node "particle" [("gamma","gamma"); ("charge","-1.0e-10"); ("cmr","-1.0")] [
    Node "position" [("x","0.0"); ("y","0.0"); ("z","L_ip + 46*lambda_X")] [];
    Node "momentum" [("x","0.0"); ("y","0.0"); ("z","-1.0")] []];
   Node "particle" [("gamma","gamma"); ("charge","-1.0e-10"); ("cmr","-1.0")] [
    Node "position" [("x","0.0"); ("y","0.0"); ("z","L_ip + 47*lambda_X")] [];
    Node "momentum" [("x","0.0"); ("y","0.0"); ("z","-1.0")] []];
   Node "particle" [("gamma","gamma"); ("charge","-1.0e-10"); ("cmr","-1.0")] [
    Node "position" [("x","0.0"); ("y","0.0"); ("z","L_ip + 48*lambda_X")] [];
    Node "momentum" [("x","0.0"); ("y","0.0"); ("z","-1.0")] []];
   Node "particle" [("gamma","gamma"); ("charge","-1.0e-10"); ("cmr","-1.0")] [
    Node "position" [("x","0.0"); ("y","0.0"); ("z","L_ip + 49*lambda_X")] [];
    Node "momentum" [("x","0.0"); ("y","0.0"); ("z","-1.0")] []]];
  Node "calc" [("print","tracking length [m] = "); ("var","total_L"); ("eq","2*L_ip")] [];
  Node "calc" [("print","tracking total time [s] = "); ("var","total_t"); ("eq","total_L/_c")] [];
  Node "calc" [("print","dt = "); ("var","dt"); ("eq","total_t/1e4")] [];
  Node "tracking" [("method","Vay"); ("delta_t","dt"); ("n","10000")] [];
  Node "observer" [] [
   Node "point" [("file","seed_10P.sdds"); ("source","lattice")] [
    Node "position" [("x","0.0"); ("y","0.0"); ("z","0.0")] [];
    Node "calc" [("print","lattice observation t0 [s] = "); ("var","t0_lat"); ("eq","L_ip/(beta*_c)")] [];
    Node "calc" [("print","lattice observation time step [s] = "); ("var","dt_lat"); ("eq","0.01*lambda/_c")] [];
    Node "time" [("t0","t0_lat-1000*dt_lat"); ("dt","dt_lat"); ("n","2000")] []];
   Node "point" [("file","compton_10P.sdds"); ("source","beam")] [
    Node "calc" [("print","screen position z0 = "); ("var","z0"); ("eq","2.0")] [];
    Node "calc" [("print","screen center time t0 = "); ("var","t0"); ("eq","L_ip/(beta*_c) + z0/_c")] [];
    Node "position" [("x","0.0"); ("y","0.0"); ("z","-z0")] [];
    Node "calc" [("print","observation time step [s] = "); ("var","dt_obs"); ("eq","0.02*lambda_X/_c")] [];
    Node "time" [("t0","t0-2000*dt_obs"); ("dt","dt_obs"); ("n","4000")] []];
   Node "screen" [("file","compton_screen_10P.h5")] [
    Node "calc" [("print","screen position z0 = "); ("var","z0"); ("eq","2.0")] [];
    Node "calc" [("print","screen center time t0 = "); ("var","t0"); ("eq","L_ip/(beta*_c) + z0/_c")] [];
    Node "calc" [("print","observation time step [s] = "); ("var","dt_obs"); ("eq","0.05*lambda_X/_c")] [];
    Node "position" [("x","0.0"); ("y","0.0"); ("z","-z0")] [];
    Node "hpitch" [("x","0.000001"); ("y","0.0"); ("z","0.0"); ("n","50"); ("dt","0.0")] [];
    Node "vpitch" [("x","0.0"); ("y","0.000001"); ("z","0.0"); ("n","50"); ("dt","0.0")] [];
    Node "time" [("t0","t0-2000*dt_obs"); ("dt","dt_obs"); ("n","5000")] []]]].
(* /repo/examples/compton_backscattering_1P.xml:1-61 *)
Definition x_compton_backscattering_1P : node :=
 Node "teufel" [("description","Compton back-scattering of electromagnetic radiation off relativistic electrons"); ("author","Ulf Lehnert 19.5.2022")] [
  Node "calc" [("print","gamma = "); ("var","gamma"); ("eq","100.0")] [];
  Node "calc" [("print","beta = "); ("var","beta"); ("eq","sqrt(1.0-1.0/gamma^2)")] [];
  Node "calc" [("print","beam start from IP [m] = "); ("var","L_ip"); ("eq","1.0e-4")] [];
  Node "calc" [("print","seed wavelength [m] = "); ("var","lambda"); ("eq","1.0e-6")] [];
  Node "calc" [("print","seed frequency [Hz] = "); ("var","freq"); ("eq","_c/lambda")] [];
  Node "calc" [("print","seed photon energy [eV] = "); ("var","seed_E"); ("eq","_h*_c/_e/lambda")] [];
  Node "calc" [("print","back-scattered wavelength [m] = "); ("var","lambda_X"); ("eq","lambda/4.0/gamma^2")] [];
  Node "calc" [("print","back-scattered frequency [Hz] = "); ("var","freq_X"); ("eq","_c/lambda_X")] [];
  Node "calc" [("print","back-scattered photon energy [eV] = "); ("var","scat_E"); ("eq","_h*_c/_e/lambda_X")] [];
  Node "lattice" [] [
   Node "wave" [("name","seed"); ("type","packet")] [
    Node "position" [("x","0.0"); ("y","0.0"); ("z","0.0"); ("t","L_ip/(beta*_c)")] [];
    Node "calc" [("print","seed power [W] = "); ("var","P0"); ("eq","1e12")] [];
    Node "calc" [("print","Rayleigh range [m] = "); ("var","zR"); ("eq","1.0")] [];
    Node "calc" [("print","waist radius w0 [m] = "); ("var","w0"); ("eq","sqrt(lambda*zR/_pi)")] [];
    Node "calc" [("print","peak intensity I0 [W/m²] = "); ("var","I0"); ("eq","2.0*P0/(_pi*w0*w0)")] [];
    Node "calc" [("print","peak field E0 [V/m] = "); ("var","E0"); ("eq","sqrt(2*I0/_eps0/_c)")] [];
    Node "field" [("lambda","lambda"); ("ReA","E0"); ("ImA","0.0"); ("rayleigh","zR"); ("tau","5*lambda/_c")] []]];
  Node "beam" [] [
   Node "particle" [("gamma","gamma"); ("charge","-1.0e-9"); ("cmr","-1.0")] [
    Node "position" [("x","0.0"); ("y","0.0"); ("z","L_ip")] [];
    Node "momentum" [("x","0.0"); ("y","0.0"); ("z","-1.0")] [];
    Node "log" [("file","compton_beam.sdds"); ("step","1")] []]];
  Node "calc" [("print","tracking length [m] = "); ("var","total_L"); ("eq","2*L_ip")] [];
  Node "calc" [("print","tracking total time [s] = "); ("var","total_t"); ("eq","total_L/_c")] [];
  Node "calc" [("print","dt = "); ("var","dt"); ("eq","total_t/1e4")] [];
  Node "tracking" [("method","Vay"); ("delta_t","dt"); ("n","10000")] [];
  Node "observer" [] [
   Node "point" [("file","seed.sdds"); ("source","lattice")] [
    Node "position" [("x","0.0"); ("y","0.0"); ("z","0.0")] [];
    Node "calc" [("print","lattice observation t0 [s] = "); ("var","t0_lat"); ("eq","L_ip/(beta*_c)")] [];
    Node "calc" [("print","lattice observation time step [s] = "); ("var","dt_lat"); ("eq","0.01*lambda/_c")] [];
    Node "time" [("t0","t0_lat-1000*dt_lat"); ("dt","dt_lat"); ("n","2000")] []];
   Node "point" [("file","compton_1P.sdds"); ("source","beam")] [
    Node "calc" [("print","screen position z0 = "); ("var","z0"); ("eq","2.0")] [];
    Node "calc" [("print","screen center time t0 = "); ("var","t0"); ("eq","L_ip/(beta*_c) + z0/_c")] [];
    Node "position" [("x","0.0"); ("y","0.0"); ("z","-z0")] [];
    Node "calc" [("print","observation time step [s] = "); ("var","dt_obs"); ("eq","0.02*lambda_X/_c")] [];
    Node "time" [("t0","t0-2000*dt_obs"); ("dt","dt_obs"); ("n","4000")] []];
   Node "screen" [("file","compton_screen_1P.h5")] [
    Node "calc" [("print","screen position z0 = "); ("var","z0"); ("eq","2.0")] [];
    Node "calc" [("print","screen center time t0 = "); ("var","t0"); ("eq","L_ip/(beta*_c) + z0/_c")] [];
    Node "calc" [("print","observation time step [s] = "); ("var","dt_obs"); ("eq","0.05*lambda_X/_c")] [];
    Node "position" [("x","0.0"); ("y","0.0"); ("z","-z0")] [];
    Node "hpitch" [("x","0.000001"); ("y","0.0"); ("z","0.0"); ("n","50"); ("dt","0.0")] [];
    Node "vpitch" [("x","0.0"); ("y","0.000001"); ("z","0.0"); ("n","50"); ("dt","0.0")] [];
    Node "time" [("t0","t0-2000*dt_obs"); ("dt","dt_obs"); ("n","5000")] []]]].
(* /repo/examples/create_source.xml:1-69 *)
Definition x_create_source : node :=
 Node "teufel" [("description","Generate input field for waveguide example"); ("author","Ulf Lehnert 17.12.2021")] [
  Node "calc" [("print","frequency [Hz] = "); ("var","freq"); ("eq","1.0e12")] [];
  Node "calc" [("print","wavelength [m] = "); ("var","lambda"); ("eq","_c/freq")] [];
  Node "calc" [("print","waveguide height g [m] = "); ("var","gap"); ("eq","0.01")] [];
  Node "lattice" [] [
   Node "wave" [("name","seed"); ("type","packet")] [
    Node "position" [("x","0.0"); ("y","0.0"); ("z","0.0"); ("t","0.625e-11")] [];
    Node "calc" [("print","seed power [W] = "); ("var","P0"); ("eq","1e6")] [];
    Node "calc" [("print","Rayleigh range [m] = "); ("var","zR"); ("eq","1.0")] [];
    Node "calc" [("print","waist radius w0 [m] = "); ("var","w0"); ("eq","sqrt(lambda*zR/_pi)")] [];
    Node "calc" [("print","peak intensity I0 [W/m²] = "); ("var","I0"); ("eq","2.0*P0/(_pi*w0*w0)")] [];
    Node "calc" [("print","peak field E0 [V/m] = "); ("var","E0"); ("eq","sqrt(2*I0/_eps0/_c)")] [];
    Node "field" [("lambda","lambda"); ("ReA","E0"); ("ImA","0.0"); ("rayleigh","zR"); ("tau","2.5/freq")] []]];
  Node "beam" [] [];
  Node "tracking" [("method","Vay"); ("delta_t","dt"); ("n","1000")] [];
  Node "observer" [] [
   Node "screen" [("name","SourceScreen"); ("source","lattice"); ("file","Source.h5")] [
    Node "position" [("x","0.0"); ("y","0.0"); ("z","0.0")] [];
    Node "hpitch" [("x","0.001"); ("y","0.0"); ("z","0.0"); ("n","40")] [];
    Node "vpitch" [("x","0.0"); ("y","0.001"); ("z","0.0"); ("n","40")] [];
    Node "time" [("t0","0.0"); ("dt","0.5e-13"); ("n","250")] []];
   Node "calc" [("print","screen position z0 = "); ("var","z0"); ("eq","1.0")] [];
   Node "calc" [("print","screen center time t0 = "); ("var","tscreen"); ("eq","z0/_c-0.4e-11")] [];
   Node "screen" [("file","Reference.h5"); ("source","lattice")] [
    Node "position" [("x","0.0"); ("y","0.0"); ("z","1.0")] [];
    Node "hpitch" [("x","0.001"); ("y","0.0"); ("z","0.0"); ("n","40")] [];
    Node "vpitch" [("x","0.0"); ("y","0.001"); ("z","0.0"); ("n","40")] [];
    Node "time" [("t0","tscreen"); ("dt","0.4e-13"); ("n","500")] []];
   Node "point" [("file","Ref_001000_Obs.sdds"); ("source","lattice")] [
    Node "calc" [("var","zobs"); ("eq","0.1000")] [];
    Node "position" [("x","0.0"); ("y","0.0"); ("z","zobs")] [];
    Node "time" [("t0","zobs/_c-0.4e-11"); ("dt","0.2e-13"); ("n","1000")] []];
   Node "point" [("file","Ref_001001_Obs.sdds"); ("source","lattice")] [
    Node "calc" [("var","zobs"); ("eq","0.1001")] [];
    Node "position" [("x","0.0"); ("y","0.0"); ("z","zobs")] [];
    Node "time" [("t0","zobs/_c-0.4e-11"); ("dt","0.2e-13"); ("n","1000")] []];
   Node "point" [("file","Ref_010000_Obs.sdds"); ("source","lattice")] [
    Node "calc" [("var","zobs"); ("eq","1.0000")] [];
    Node "position" [("x","0.0"); ("y","0.0"); ("z","zobs")] [];
    Node "time" [("t0","zobs/_c-0.4e-11"); ("dt","0.2e-13"); ("n","1000")] []];
   Node "point" [("file","Ref_010001_Obs.sdds"); ("source","lattice")] [
    Node "calc" [("var","zobs"); ("eq","1.0001")] [];
    Node "position" [("x","0.0"); ("y","0.0"); ("z","zobs")] [];
    Node "time" [("t0","zobs/_c-0.4e-11"); ("dt","0.2e-13"); ("n","1000")] []];
   Node "point" [("file","Ref_100000_Obs.sdds"); ("source","lattice")] [
    Node "calc" [("var","zobs"); ("eq","10.0000")] [];
    Node "position" [("x","0.0"); ("y","0.0"); ("z","zobs")] [];
    Node "time" [("t0","zobs/_c-0.4e-11"); ("dt","0.2e-13"); ("n","1000")] []];
   Node "point" [("file","Ref_100001_Obs.sdds"); ("source","lattice")] [
    Node "calc" [("var","zobs"); ("eq","10.0001")] [];
    Node "position" [("x","0.0"); ("y","0.0"); ("z","zobs")] [];
    Node "time" [("t0","zobs/_c-0.4e-11"); ("dt","0.2e-13"); ("n","1000")] []]]].
(* /repo/examples/dali-tgu200.xml:1-99 *)
Definition x_dali_tgu200 : node :=
 Node "teufel" [("description","large bandwidth THz emission from the DALI TGU200 transverse gradient undulator"); ("author","Ulf Lehnert 29.5.2019")] [
  Node "calc" [("print","gamma = "); ("var","gamma"); ("eq","80.0")] [];
  Node "calc" [("print","beta*gamma = "); ("var","betagamma"); ("eq","sqrt(gamma*gamma-1)")] [];
  Node "calc" [("print","beam energy [eV] = "); ("var","E_beam"); ("eq","gamma*_mec2")] [];
  Node "calc" [("print","charge [nC] = "); ("var","charge"); ("eq","-1.0")] [];
  Node "calc" [("print","center frequency [Hz] = "); ("var","f"); ("eq","7.5e12")] [];
  Node "calc" [("print","lambda [m] = "); ("var","lambda"); ("eq","_c/f")] [];
  Node "calc" [("var","lambda_U"); ("eq","0.200")] [];
  Node "lattice" [] [
   Node "undulator" [("name","U200"); ("type","transverse gradient")] [
    Node "calc" [("print","K_rms(TGU200) = "); ("var","K_rms"); ("eq","sqrt(lambda/lambda_U*2*gamma*gamma-1)")] [];
    Node "calc" [("var","Bpeak"); ("eq","K_rms*sqrt(2)/_c*2*_pi*_mec2/lambda_U")] [];
    Node "field" [("B","Bpeak"); ("period","lambda_U"); ("N","8"); ("kx","1/0.025"); ("modulation","-0.025")] [];
    Node "position" [("x","0.0"); ("y","0.0"); ("z","1.0")] []]];
  Node "beam" [] [
   Node "bunch" [("gamma","gamma"); ("charge","1.0e-9*charge"); ("cmr","-1.0"); ("n","10000")] [
    Node "calc" [("var","nemit"); ("eq","5e-6")] [];
    Node "calc" [("var","emit"); ("eq","nemit/betagamma")] [];
    Node "calc" [("var","betax"); ("eq","1.0")] [];
    Node "calc" [("var","betay"); ("eq","0.3")] [];
    Node "position" [("x","0.0"); ("y","0.0"); ("z","0.0"); ("xrms","sqrt(emit*betax)"); ("yrms","sqrt(emit*betay)"); ("zft","0.4e-12*_c")] [];
    Node "momentum" [("x","0.0"); ("y","0.0"); ("z","1.0"); ("xrms","sqrt(emit/betax)"); ("yrms","sqrt(emit/betay)"); ("delta","1e-3")] [];
    Node "correlations" [] [
     Node "linear" [("indep","3"); ("dep","0"); ("factor","-1.0/betagamma")] [];
     Node "linear" [("indep","4"); ("dep","1"); ("factor","-0.2/betagamma")] [];
     Node "linear" [("indep","2"); ("dep","5"); ("factor","-0.025*gamma/(1e-12*_c)")] [];
     Node "linear" [("indep","5"); ("dep","0"); ("factor","-1.0/betagamma")] []]]];
  Node "calc" [("print","tracking length [m] = "); ("var","total_L"); ("eq","2.0")] [];
  Node "calc" [("print","tracking total time [s] = "); ("var","total_t"); ("eq","total_L/_c")] [];
  Node "calc" [("print","dt = "); ("var","dt"); ("eq","total_t/4000")] [];
  Node "tracking" [("method","Vay"); ("delta_t","dt"); ("n","4000")] [
   Node "watch" [("step","0"); ("file","dali-tgu200_00.h5")] [];
   Node "watch" [("step","100"); ("file","dali-tgu200_01.h5")] [];
   Node "watch" [("step","200"); ("file","dali-tgu200_02.h5")] [];
   Node "watch" [("step","300"); ("file","dali-tgu200_03.h5")] [];
   Node "watch" [("step","400"); ("file","dali-tgu200_04.h5")] [];
   Node "watch" [("step","500"); ("file","dali-tgu200_05.h5")] [];
   Node "watch" [("step","600"); ("file","dali-tgu200_06.h5")] [];
   Node "watch" [("step","700"); ("file","dali-tgu200_07.h5")] [];
   Node "watch" [("step","800"); ("file","dali-tgu200_08.h5")] [];
   Node "watch" [("step","900"); ("file","dali-tgu200_09.h5")] [];
   Node "watch" [("step","1000"); ("file","dali-tgu200_10.h5")] [];
   Node "watch" [("step","1100"); ("file","dali-tgu200_11.h5")] [];
   Node "watch" [("step","1200"); ("file","dali-tgu200_12.h5")] [];
   Node "watch" [("step","1300"); ("file","dali-tgu200_13.h5")] [];
   Node "watch" [("step","1400"); ("file","dali-tgu200_14.h5")] [];
   Node "watch" [("step","1500"); ("file","dali-tgu200_15.h5")] [];
   Node "watch" [("step","1600"); ("file","dali-tgu200_16.h5")] [];
   Node "watch" [("step","1700"); ("file","dali-tgu200_17.h5")] [];
   Node "watch" [("step","1800"); ("file","dali-tgu200_18.h5")] [];
   Node "watch" [("step","1900"); ("file","dali-tgu200_19.h5")] [];
   Node "watch" [("step","2000"); ("file","dali-tgu200_20.h5")] [];
   Node "watch" [("step","2100"); ("file","dali-tgu200_21.h5")] [];
   Node "watch" [("step","2200"); ("file","dali-tgu200_22.h5")] [];
   Node "watch" [("step","2300"); ("file","dali-tgu200_23.h5")] [];
   Node "watch" [("step","2400"); ("file","dali-tgu200_24.h5")] [];
   Node "watch" [("step","2500"); ("file","dali-tgu200_25.h5")] [];
   Node "watch" [("step","2600"); ("file","dali-tgu200_26.h5")] [];
   Node "watch" [("step","2700"); ("file","dali-tgu200_27.h5")] [];
   Node "watch" [("step","2800"); ("file","dali-tgu200_28.h5")] [];
   Node "watch" [("step","2900"); ("file","dali-tgu200_29.h5")] [];
   Node "watch" [("step","3000"); ("file","dali-tgu200_30.h5")] [];
   Node "watch" [("step","3100"); ("file","dali-tgu200_31.h5")] [];
   Node "watch" [("step","3200"); ("file","dali-tgu200_32.h5")] [];
   Node "watch" [("step","3300"); ("file","dali-tgu200_33.h5")] [];
   Node "watch" [("step","3400"); ("file","dali-tgu200_34.h5")] [];
   Node "watch" [("step","3500"); ("file","dali-tgu200_35.h5")] [];
   Node "watch" [("step","3600"); ("file","dali-tgu200_36.h5")] [];
   Node "watch" [("step","3700"); ("file","dali-tgu200_37.h5")] [];
   Node "watch" [("step","3800"); ("file","dali-tgu200_38.h5")] [];
   Node "watch" [("step","3900"); ("file","dali-tgu200_39.h5")] [];
   Node "watch" [("step","4000"); ("file","dali-tgu200_40.h5")] []];
  Node "observer" [] [
   Node "calc" [("print","screen position z0 = "); ("var","z0"); ("eq","10.0")] [];
   Node "calc" [("print","screen start time t0 = "); ("var","t0"); ("eq","z0/_c-0.5e-12")] [];
   Node "point" [("file","dali-tgu200_obs_10m.sdds")] [
    Node "position" [("x","0.0"); ("y","0.0"); ("z","z0")] [];
    Node "time" [("t0","t0"); ("dt","1e-14"); ("n","500")] []]]].
(* /repo/examples/dali-u100-radiator.xml:1-52 *)
Definition x_dali_u100_radiator : node :=
 Node "teufel" [("description","Modulated beam emission from the DALI U100 radiator"); ("author","Ulf Lehnert 27.3.2023")] [
  Node "calc" [("print","beam energy [eV] = "); ("var","E_beam"); ("eq","30.0e6")] [];
  Node "calc" [("print","gamma = "); ("var","gamma"); ("eq","E_beam/_mec2")] [];
  Node "calc" [("print","charge [nC] = "); ("var","charge"); ("eq","-1.0")] [];
  Node "calc" [("print","lambda [m] = "); ("var","lambda"); ("eq","0.000100")] [];
  Node "calc" [("print","freq [Hz] = "); ("var","f"); ("eq","_c/lambda")] [];
  Node "calc" [("var","lambda_U"); ("eq","0.100")] [];
  Node "lattice" [] [
   Node "undulator" [("name","U100"); ("type","planar")] [
    Node "calc" [("print","K_rms(U100) = "); ("var","K_rms"); ("eq","sqrt(lambda/lambda_U*2*gamma*gamma-1)")] [];
    Node "field" [("B","K_rms*sqrt(2)/_c*2*_pi*_mec2/lambda_U"); ("period","lambda_U"); ("N","10")] [];
    Node "position" [("x","0.0"); ("y","0.0"); ("z","0.75")] []]];
  Node "beam" [] [
   Node "bunch" [("gamma","gamma"); ("charge","1.0e-9*charge"); ("cmr","-1.0"); ("n","199")] [
    Node "calc" [("print","bunchlength [s] = "); ("var","tau"); ("eq","1.0e-12")] [];
    Node "position" [("x","0.0"); ("y","0.0"); ("z","0.0"); ("zrms","tau*_c")] [];
    Node "momentum" [("x","0.0"); ("y","0.0"); ("z","1.0"); ("delta","0.0")] [];
    Node "log" [("file","dali-u100_beam.sdds"); ("step","100")] []]];
  Node "calc" [("print","tracking length [m] = "); ("var","total_L"); ("eq","1.5")] [];
  Node "calc" [("print","tracking total time [s] = "); ("var","total_t"); ("eq","(total_L+10*lambda)/_c")] [];
  Node "calc" [("print","dz = "); ("var","dz"); ("eq","0.1*lambda")] [];
  Node "calc" [("print","dt = "); ("var","dt"); ("eq","dz/_c")] [];
  Node "calc" [("print","tracking steps = "); ("var","n_tracking"); ("eq","total_t/dt")] [];
  Node "tracking" [("method","Vay"); ("delta_t","dt"); ("n","n_tracking")] [
   Node "fel1d" [("N","400")] [
    Node "position" [("x","0.0"); ("y","0.0"); ("z","5.0e-12*_c")] [];
    Node "prop" [("x","0.0"); ("y","0.0"); ("z","1.0")] [];
    Node "pol" [("x","1.0"); ("y","0.0"); ("z","0.0")] [];
    Node "calc" [("var","z_R"); ("eq","0.5")] [];
    Node "calc" [("var","w_0"); ("eq","sqrt(z_R*lambda/_pi)")] [];
    Node "mode" [("zR","z_R"); ("w0","w_0"); ("zwaist","0.75")] [];
    Node "seed" [("E0","1.0e8"); ("lambda","lambda"); ("tau","1.0e-12"); ("tstart","5.0e-12")] [];
    Node "log" [("file","dali-u100_fel1d.hdf5"); ("step","1")] []];
   Node "watch" [("step","0"); ("file","dali-u100-radiator_inital.hdf5")] [];
   Node "watch" [("step","n_tracking"); ("file","dali-u100-radiator_final.hdf5")] []];
  Node "observer" [] []].
(* /repo/examples/diffraction_radiation.xml:1-27 *)
Definition x_diffraction_radiation : node :=
 Node "teufel" [("description","Diffraction radiation example recreating the test case"); ("author","Ulf Lehnert 25.4.2020")] [
  Node "calc" [("print","gamma = "); ("var","gamma"); ("eq","20.0")] [];
  Node "calc" [("print","beta = "); ("var","beta"); ("eq","sqrt(1.0-1.0/(gamma*gamma))")] [];
  Node "calc" [("print","charge [nC] = "); ("var","charge"); ("eq","-0.1")] [];
  Node "lattice" [] [];
  Node "beam" [] [
   Node "particle" [("gamma","gamma"); ("charge","1.0e-9*charge"); ("cmr","-1.0"); ("n","1")] [
    Node "calc" [("print","start at z0 [m] = "); ("var","z0"); ("eq","-10.0")] [];
    Node "calc" [("print","start at t0 [s] = "); ("var","t0"); ("eq","z0/(beta*_c)")] [];
    Node "time" [("t0","t0")] [];
    Node "position" [("x","0.0"); ("y","0.0"); ("z","z0")] [];
    Node "momentum" [("x","0.0"); ("y","0.0"); ("z","1.0")] []]];
  Node "calc" [("print","tracking length [m] = "); ("var","total_L"); ("eq","20.0")] [];
  Node "calc" [("print","tracking total time [s] = "); ("var","total_t"); ("eq","total_L/(beta*_c)")] [];
  Node "calc" [("print","dt = "); ("var","dt"); ("eq","total_t/20000")] [];
  Node "tracking" [("method","Vay"); ("delta_t","dt"); ("n","20000")] [];
  Node "observer" [] [
   Node "mesh" [("file","DiffractionScreen.h5")] []]].
(* /repo/examples/elbe-CDR.xml:1-67 *)
Definition x_elbe_CDR : node :=
 Node "teufel" [("description","Superradiant emission from the ELBE CDR source including bunch compression"); ("author","Ulf Lehnert 10.7.2020")] [
  Node "calc" [("print","beam energy [eV] = "); ("var","E_beam"); ("eq","26.0e6")] [];
  Node "calc" [("print","gamma = "); ("var","gamma"); ("eq","E_beam/_mec2")] [];
  Node "calc" [("var","betagamma"); ("eq","sqrt(gamma*gamma-1)")] [];
  Node "calc" [("print","charge [nC] = "); ("var","charge"); ("eq","-1.0")] [];
  Node "lattice" [] [
   Node "calc" [("print","chicane field [T] = "); ("var","B"); ("eq","0.11")] [];
   Node "dipole" [("name","MD1"); ("type","hard edge")] [
    Node "B" [("x","0.0"); ("y","-B"); ("z","0.0")] [];
    Node "p1" [("x","0.0"); ("y","0.0"); ("z","0.000")] [];
    Node "n1" [("x","0.0"); ("y","0.0"); ("z","-1.0")] [];
    Node "p2" [("x","0.0"); ("y","0.0"); ("z","0.150")] [];
    Node "n2" [("x","0.0"); ("y","0.0"); ("z","1.0")] []];
   Node "dipole" [("name","MD2"); ("type","hard edge")] [
    Node "B" [("x","0.0"); ("y","B"); ("z","0.0")] [];
    Node "p1" [("x","0.0"); ("y","0.0"); ("z","0.650")] [];
    Node "n1" [("x","0.0"); ("y","0.0"); ("z","-1.0")] [];
    Node "p2" [("x","0.0"); ("y","0.0"); ("z","0.800")] [];
    Node "n2" [("x","0.0"); ("y","0.0"); ("z","1.0")] []];
   Node "dipole" [("name","MD3"); ("type","hard edge")] [
    Node "B" [("x","0.0"); ("y","B"); ("z","0.0")] [];
    Node "p1" [("x","0.0"); ("y","0.0"); ("z","1.100")] [];
    Node "n1" [("x","0.0"); ("y","0.0"); ("z","-1.0")] [];
    Node "p2" [("x","0.0"); ("y","0.0"); ("z","1.250")] [];
    Node "n2" [("x","0.0"); ("y","0.0"); ("z","1.0")] []];
   Node "dipole" [("name","MD4"); ("type","hard edge")] [
    Node "B" [("x","0.0"); ("y","-B"); ("z","0.0")] [];
    Node "p1" [("x","0.0"); ("y","0.0"); ("z","1.750")] [];
    Node "n1" [("x","0.0"); ("y","0.0"); ("z","-1.0")] [];
    Node "p2" [("x","0.0"); ("y","0.0"); ("z","1.900")] [];
    Node "n2" [("x","0.0"); ("y","0.0"); ("z","1.0")] []]];
  Node "beam" [] [
   Node "bunch" [("gamma","gamma"); ("charge","1.0e-9*charge"); ("cmr","-1.0"); ("n","2000")] [
    Node "position" [("x","0.0"); ("y","0.0"); ("z","-1.0"); ("xrms","0.001"); ("yrms","0.001"); ("zrms","2.0e-12*_c")] [];
    Node "momentum" [("x","0.0"); ("y","0.0"); ("z","1.0"); ("xrms","0.0001"); ("yrms","0.0001"); ("delta","1.2e-3")] [];
    Node "log" [("file","elbe-cdr.sdds"); ("step","100")] [];
    Node "correlations" [] [
     Node "linear" [("indep","0"); ("dep","3"); ("factor","-0.3*betagamma")] [];
     Node "linear" [("indep","1"); ("dep","4"); ("factor","-0.3*betagamma")] [];
     Node "linear" [("indep","2"); ("dep","5"); ("factor","-21.0*gamma")] []]]];
  Node "calc" [("print","tracking length [m] = "); ("var","total_L"); ("eq","3.0")] [];
  Node "calc" [("print","tracking total time [s] = "); ("var","total_t"); ("eq","total_L/_c")] [];
  Node "calc" [("print","dt = "); ("var","dt"); ("eq","total_t/30000")] [];
  Node "tracking" [("method","Vay"); ("delta_t","dt"); ("n","30000")] [
   Node "watch" [("step","0"); ("file","elbe-cdr_inital.h5")] [];
   Node "watch" [("step","20000"); ("file","elbe-cdr_centerBC.h5")] [];
   Node "watch" [("step","30000"); ("file","elbe-cdr_final.h5")] []];
  Node "observer" [] []].
(* /repo/examples/elbe-EOS.xml:1-49 *)
Definition x_elbe_EOS : node :=
 Node "teufel" [("description","Space charge fields near the ELBE beam for EOS"); ("author","Ulf Lehnert 2.6.2023")] [
  Node "calc" [("print","beam energy [eV] = "); ("var","E_beam"); ("eq","30.0e6")] [];
  Node "calc" [("print","gamma = "); ("var","gamma"); ("eq","E_beam/_mec2")] [];
  Node "calc" [("print","beta*gamma = "); ("var","betagamma"); ("eq","sqrt(gamma*gamma-1)")] [];
  Node "calc" [("print","charge [nC] = "); ("var","charge"); ("eq","-0.050")] [];
  Node "calc" [("print","bunchlength [ps] = "); ("var","tau"); ("eq","2.0")] [];
  Node "calc" [("print","bunchlength [m] = "); ("var","zrms"); ("eq","1.0e-12*tau*_c")] [];
  Node "calc" [("print","beam size [mm] = "); ("var","sigma"); ("eq","1.0")] [];
  Node "calc" [("print","normalized emittance [mm mrad] = "); ("var","norm_emit"); ("eq","10.0")] [];
  Node "calc" [("print","geometric emittance [m rad] = "); ("var","emit"); ("eq","1.0e-6*norm_emit/betagamma")] [];
  Node "calc" [("print","beta function [m] = "); ("var","beta"); ("eq","1.0e-6*sigma*sigma/emit")] [];
  Node "lattice" [] [];
  Node "beam" [] [
   Node "bunch" [("gamma","gamma"); ("charge","1.0e-9*charge"); ("cmr","-1.0"); ("n","1000")] [
    Node "position" [("x","0.0"); ("y","0.0"); ("z","-1.0"); ("xrms","1.0e-3*sigma"); ("yrms","1.0e-3*sigma"); ("zrms","zrms")] [];
    Node "momentum" [("x","0.0"); ("y","0.0"); ("z","1.0"); ("xrms","sqrt(emit/beta)"); ("yrms","sqrt(emit/beta)"); ("delta","0.0")] [];
    Node "correlations" [] [
     Node "linear" [("indep","3"); ("dep","0"); ("factor","-1.0/betagamma")] [];
     Node "linear" [("indep","4"); ("dep","1"); ("factor","-1.0/betagamma")] []];
    Node "log" [("file","elbe-EOS.sdds"); ("step","1")] []]];
  Node "calc" [("print","tracking length [m] = "); ("var","total_L"); ("eq","1.2")] [];
  Node "calc" [("print","tracking total time [s] = "); ("var","total_t"); ("eq","total_L/_c")] [];
  Node "calc" [("print","dt = "); ("var","dt"); ("eq","total_t/1200")] [];
  Node "tracking" [("method","Vay"); ("delta_t","dt"); ("n","1200")] [
   Node "watch" [("step","0"); ("file","elbe-EOS_0.h5")] [];
   Node "watch" [("step","1000"); ("file","elbe-EOS_1000.h5")] []];
  Node "observer" [] [
   Node "calc" [("print","observation start time t0 = "); ("var","t0"); ("eq","1.0/_c")] [];
   Node "point" [("file","elbe-EOS_obs_17mm.sdds")] [
    Node "position" [("x","0.017"); ("y","0.000"); ("z","0.0")] [];
    Node "time" [("t0","t0-10.0e-12"); ("dt","1e-13"); ("n","300")] []];
   Node "snapshot" [("file","elbe-EOS_snap.h5")] [
    Node "time" [("t0","1000*dt")] [];
    Node "position" [("x","0.0"); ("y","0.0"); ("z","0.0")] [];
    Node "hpitch" [("x","0.000500"); ("y","0.0"); ("z","0.0"); ("n","101")] [];
    Node "vpitch" [("x","0.0"); ("y","0.0"); ("z","0.000100"); ("n","101")] []]]].
(* /repo/examples/elbe-u300-snapshot.xml:1-59 *)
Definition x_elbe_u300_snapshot : node :=
 Node "teufel" [("description","Superradiant emission from the ELBE U300 undulator"); ("author","Ulf Lehnert 14.9.2017")] [
  Node "calc" [("print","beam energy [eV] = "); ("var","E_beam"); ("eq","26.0e6")] [];
  Node "calc" [("print","gamma = "); ("var","gamma"); ("eq","E_beam/_mec2")] [];
  Node "calc" [("print","charge [nC] = "); ("var","charge"); ("eq","-1.0")] [];
  Node "calc" [("print","freq [Hz] = "); ("var","f"); ("eq","1.0e12")] [];
  Node "calc" [("print","lambda [m] = "); ("var","lambda"); ("eq","_c/f")] [];
  Node "calc" [("var","lambda_U"); ("eq","0.300")] [];
  Node "lattice" [] [
   Node "undulator" [("name","U300"); ("type","planar")] [
    Node "calc" [("print","K_rms(U300) = "); ("var","K_rms"); ("eq","sqrt(lambda/lambda_U*2*gamma*gamma-1)")] [];
    Node "field" [("B","K_rms*sqrt(2)/_c*2*_pi*_mec2/lambda_U"); ("period","lambda_U"); ("N","8")] [];
    Node "position" [("x","0.0"); ("y","0.0"); ("z","2.0")] []]];
  Node "beam" [] [
   Node "bunch" [("gamma","gamma"); ("charge","1.0e-9*charge"); ("cmr","-1.0"); ("n","1000")] [
    Node "calc" [("print","for F=0.5 bunchlength [s] = "); ("var","tau"); ("eq","0.1325/f")] [];
    Node "position" [("x","0.0"); ("y","0.0"); ("z","0.0"); ("zrms","tau*_c")] [];
    Node "momentum" [("x","0.0"); ("y","0.0"); ("z","1.0"); ("delta","1e-3")] []]];
  Node "calc" [("print","tracking length [m] = "); ("var","total_L"); ("eq","4.0")] [];
  Node "calc" [("print","tracking total time [s] = "); ("var","total_t"); ("eq","total_L/_c")] [];
  Node "calc" [("print","dt = "); ("var","dt"); ("eq","total_t/4000")] [];
  Node "tracking" [("method","Vay"); ("delta_t","dt"); ("n","4000")] [
   Node "watch" [("step","0"); ("file","elbe-u300_0.h5")] [];
   Node "watch" [("step","1000"); ("file","elbe-u300_1000.h5")] [];
   Node "watch" [("step","2000"); ("file","elbe-u300_2000.h5")] [];
   Node "watch" [("step","3000"); ("file","elbe-u300_3000.h5")] [];
   Node "watch" [("step","4000"); ("file","elbe-u300_4000.h5")] []];
  Node "observer" [] [
   Node "calc" [("print","observation position z0 = "); ("var","z0"); ("eq","10.0")] [];
   Node "calc" [("print","observation start time t0 = "); ("var","t0"); ("eq","z0/_c")] [];
   Node "point" [("file","elbe-u300_obs_10m.sdds")] [
    Node "position" [("x","0.0"); ("y","0.0"); ("z","z0")] [];
    Node "time" [("t0","t0"); ("dt","1e-13"); ("n","300")] []];
   Node "snapshot" [("file","elbe-u300_snap_2000.h5")] [
    Node "time" [("t0","2000*dt")] [];
    Node "position" [("x","0.0"); ("y","0.0"); ("z","2000*dt*_c-0.000020*100")] [];
    Node "hpitch" [("x","0.000500"); ("y","0.0"); ("z","0.0"); ("n","101")] [];
    Node "vpitch" [("x","0.0"); ("y","0.0"); ("z","0.000020"); ("n","251")] []];
   Node "snapshot" [("file","elbe-u300_snap_4000.h5")] [
    Node "time" [("t0","4000*dt")] [];
    Node "position" [("x","0.0"); ("y","0.0"); ("z","4000*dt*_c-0.000020*100")] [];
    Node "hpitch" [("x","0.000500"); ("y","0.0"); ("z","0.0"); ("n","101")] [];
    Node "vpitch" [("x","0.0"); ("y","0.0"); ("z","0.000020"); ("n","251")] []]]].
(* /repo/examples/elbe-u300.xml:1-57 *)
Definition x_elbe_u300 : node :=
 Node "teufel" [("description","Superradiant emission from the ELBE U300 undulator"); ("author","Ulf Lehnert 14.9.2017")] [
  Node "calc" [("print","beam energy [eV] = "); ("var","E_beam"); ("eq","26.0e6")] [];
  Node "calc" [("print","gamma = "); ("var","gamma"); ("eq","E_beam/_mec2")] [];
  Node "calc" [("print","charge [nC] = "); ("var","charge"); ("eq","-0.1")] [];
  Node "calc" [("print","freq [Hz] = "); ("var","f"); ("eq","1.0e12")] [];
  Node "calc" [("print","lambda [m] = "); ("var","lambda"); ("eq","_c/f")] [];
  Node "calc" [("var","lambda_U"); ("eq","0.300")] [];
  Node "lattice" [] [
   Node "undulator" [("name","U300"); ("type","planar")] [
    Node "calc" [("print","K_rms(U300) = "); ("var","K_rms"); ("eq","sqrt(lambda/lambda_U*2*gamma*gamma-1)")] [];
    Node "field" [("B","K_rms*sqrt(2)/_c*2*_pi*_mec2/lambda_U"); ("period","lambda_U"); ("N","8")] [];
    Node "position" [("x","0.0"); ("y","0.0"); ("z","2.0")] []]];
  Node "beam" [] [
   Node "bunch" [("gamma","gamma"); ("charge","1.0e-9*charge"); ("cmr","-1.0"); ("n","199")] [
    Node "calc" [("print","for F=0.5 bunchlength [s] = "); ("var","tau"); ("eq","0.1325/f")] [];
    Node "position" [("x","0.0"); ("y","0.0"); ("z","0.0"); ("zrms","tau*_c")] [];
    Node "momentum" [("x","0.0"); ("y","0.0"); ("z","1.0"); ("delta","1e-3")] [];
    Node "log" [("file","elbe-u300.sdds"); ("step","10")] []]];
  Node "calc" [("print","tracking length [m] = "); ("var","total_L"); ("eq","4.0")] [];
  Node "calc" [("print","tracking total time [s] = "); ("var","total_t"); ("eq","total_L/_c")] [];
  Node "calc" [("print","dt = "); ("var","dt"); ("eq","total_t/4000")] [];
  Node "tracking" [("method","Vay"); ("delta_t","dt"); ("n","4000")] [
   Node "watch" [("step","0"); ("file","elbe-u300_inital.hdf5")] [];
   Node "watch" [("step","4000"); ("file","elbe-u300_final.hdf5")] []];
  Node "observer" [] [
   Node "calc" [("print","screen position z0 = "); ("var","z0"); ("eq","7.0")] [];
   Node "calc" [("print","screen start time t0 = "); ("var","t0"); ("eq","z0/_c")] [];
   Node "point" [("file","elbe-u300_obs_5m.sdds")] [
    Node "position" [("x","0.0"); ("y","0.0"); ("z","z0")] [];
    Node "time" [("t0","t0"); ("dt","1e-13"); ("n","300")] []];
   Node "screen" [("file","elbe-u300_screen_5m.h5")] [
    Node "position" [("x","0.0"); ("y","0.0"); ("z","z0")] [];
    Node "hpitch" [("x","0.01"); ("y","0.0"); ("z","0.0"); ("n","64")] [];
    Node "vpitch" [("x","0.0"); ("y","0.01"); ("z","0.0"); ("n","64")] [];
    Node "time" [("t0","t0"); ("dt","1e-13"); ("n","1000")] []];
   Node "screen" [("file","elbe-u300_angled_screen_5m.h5")] [
    Node "position" [("x","0.0"); ("y","0.0"); ("z","z0")] [];
    Node "hpitch" [("x","0.01"); ("y","0.0"); ("z","-0.01"); ("n","64"); ("dt","-0.01/_c")] [];
    Node "vpitch" [("x","0.0"); ("y","0.01"); ("z","0.0"); ("n","64"); ("dt","0.0")] [];
    Node "time" [("t0","t0"); ("dt","1e-13"); ("n","1000")] []]]].
(* /repo/examples/elbe-u300_200pC.xml:1-50 *)
Definition x_elbe_u300_200pC : node :=
 Node "teufel" [("description","Superradiant emission from the ELBE U300 undulator"); ("author","Ulf Lehnert 14.9.2017")] [
  Node "calc" [("print","beam energy [eV] = "); ("var","E_beam"); ("eq","26.0e6")] [];
  Node "calc" [("print","gamma = "); ("var","gamma"); ("eq","E_beam/_mec2")] [];
  Node "calc" [("print","charge [nC] = "); ("var","charge"); ("eq","-0.1")] [];
  Node "calc" [("print","freq [Hz] = "); ("var","f"); ("eq","1.0e12")] [];
  Node "calc" [("print","lambda [m] = "); ("var","lambda"); ("eq","_c/f")] [];
  Node "calc" [("var","lambda_U"); ("eq","0.300")] [];
  Node "lattice" [] [
   Node "undulator" [("name","U300"); ("type","planar")] [
    Node "calc" [("print","K_rms(U300) = "); ("var","K_rms"); ("eq","sqrt(lambda/lambda_U*2*gamma*gamma-1)")] [];
    Node "field" [("B","K_rms*sqrt(2)/_c*2*_pi*_mec2/lambda_U"); ("period","lambda_U"); ("N","8")] [];
    Node "position" [("x","0.0"); ("y","0.0"); ("z","2.0")] []]];
  Node "beam" [] [
   Node "SDDS" [("file","examples/before_U300.sdds")] [
    Node "correlations" [] [
     Node "linear" [("indep","5"); ("dep","2"); ("factor","2.2e-12*_c")] []];
    Node "log" [("file","elbe-u300_200pC_log.sdds"); ("step","10")] []]];
  Node "calc" [("print","tracking length [m] = "); ("var","total_L"); ("eq","4.0")] [];
  Node "calc" [("print","tracking total time [s] = "); ("var","total_t"); ("eq","total_L/_c")] [];
  Node "calc" [("print","dt = "); ("var","dt"); ("eq","total_t/4000")] [];
  Node "tracking" [("method","Vay"); ("delta_t","dt"); ("n","4000")] [
   Node "watch" [("step","0"); ("file","elbe-u300_200pC_inital.sdds")] [];
   Node "watch" [("step","4000"); ("file","elbe-u300_200pC_final.sdds")] []];
  Node "observer" [] [
   Node "calc" [("print","screen position z0 = "); ("var","z0"); ("eq","7.0")] [];
   Node "calc" [("print","screen start time t0 = "); ("var","t0"); ("eq","z0/_c")] [];
   Node "point" [("file","elbe-u300_200pC_obs_5m.sdds")] [
    Node "position" [("x","0.0"); ("y","0.0"); ("z","z0")] [];
    Node "time" [("t0","t0-5e-12"); ("dt","1e-13"); ("n","300")] []];
   Node "screen" [("file","elbe-u300_200pC_screen_5m.h5")] [
    Node "position" [("x","0.0"); ("y","0.0"); ("z","z0")] [];
    Node "hpitch" [("x","0.01"); ("y","0.0"); ("z","0.0"); ("n","64")] [];
    Node "vpitch" [("x","0.0"); ("y","0.01"); ("z","0.0"); ("n","64")] [];
    Node "time" [("t0","t0-5e-12"); ("dt","1e-13"); ("n","1200")] []]]].
(* /repo/examples/fel_interaction.xml:1-57 *)
Definition x_fel_interaction : node :=
 Node "teufel" [("description","FEL interaction of an electron with an electromagnetic wave inside an undulator"); ("author","Ulf Lehnert 11.4.2019")] [
  Node "calc" [("print","beam energy [eV] = "); ("var","E_beam"); ("eq","26.0e6")] [];
  Node "calc" [("print","gamma = "); ("var","gamma"); ("eq","E_beam/_mec2")] [];
  Node "calc" [("print","resonance wavelength [m] = "); ("var","lambda_R"); ("eq","20.0e-6")] [];
  Node "calc" [("var","lambda_U"); ("eq","0.037")] [];
  Node "lattice" [] [
   Node "undulator" [("name","U37"); ("type","planar")] [
    Node "calc" [("print","K_rms(U37) = "); ("var","K_rms"); ("eq","sqrt(lambda_R/lambda_U*2*gamma*gamma-1)")] [];
    Node "field" [("B","K_rms*sqrt(2)/_c*2*_pi*_mec2/lambda_U"); ("period","lambda_U"); ("N","54")] [];
    Node "position" [("x","0.0"); ("y","0.0"); ("z","2.0")] []];
   Node "wave" [("name","seed"); ("type","gaussian")] [
    Node "calc" [("print","seed wavelength [m] = "); ("var","lambda_S"); ("eq","lambda_R*1.025")] [];
    Node "position" [("x","0.0"); ("y","0.0"); ("z","2.0")] [];
    Node "calc" [("print","seed power [W] = "); ("var","P0"); ("eq","1e6")] [];
    Node "calc" [("print","Rayleigh range [m] = "); ("var","zR"); ("eq","1.0")] [];
    Node "calc" [("print","waist radius w0 [m] = "); ("var","w0"); ("eq","sqrt(lambda_S*zR/_pi)")] [];
    Node "calc" [("print","peak intensity I0 [W/m²] = "); ("var","I0"); ("eq","2.0*P0/(_pi*w0*w0)")] [];
    Node "calc" [("print","peak field E0 [V/m] = "); ("var","E0"); ("eq","sqrt(2*I0/_eps0/_c)")] [];
    Node "field" [("lambda","lambda_S"); ("ReA","E0"); ("ImA","0.0"); ("rayleigh","zR")] []]];
  Node "beam" [] [
   Node "bunch" [("gamma","gamma"); ("charge","1.0e-9"); ("cmr","-1.0"); ("n","5000")] [
    Node "position" [("x","0.0"); ("y","0.0"); ("z","0.0"); ("zrms","lambda_R")] [];
    Node "momentum" [("x","0.0"); ("y","0.0"); ("z","1.0"); ("delta","0.001")] [];
    Node "log" [("file","fel_interaction_beam.sdds"); ("step","1"); ("bunching-freq","_c/lambda_R")] []]];
  Node "calc" [("print","tracking length [m] = "); ("var","total_L"); ("eq","4.0")] [];
  Node "calc" [("print","tracking total time [s] = "); ("var","total_t"); ("eq","total_L/_c")] [];
  Node "calc" [("print","dt = "); ("var","dt"); ("eq","total_t/4000")] [];
  Node "tracking" [("method","Vay"); ("delta_t","dt"); ("n","4000")] [
   Node "watch" [("step","0"); ("file","fel-u37_inital.h5")] [];
   Node "watch" [("step","2000"); ("file","fel-u37_center.h5")] [];
   Node "watch" [("step","4000"); ("file","fel-u37_final.h5")] []];
  Node "observer" [] [
   Node "calc" [("print","screen position z0 = "); ("var","z0"); ("eq","5.0")] [];
   Node "calc" [("print","screen start time t0 = "); ("var","t0"); ("eq","z0/_c")] [];
   Node "point" [("file","fel_lat_5m.sdds"); ("source","lattice")] [
    Node "position" [("x","0.0"); ("y","0.0"); ("z","z0")] [];
    Node "time" [("t0","t0"); ("dt","0.5e-14"); ("n","1000")] []];
   Node "point" [("file","fel_obs_5m.sdds"); ("source","beam")] [
    Node "position" [("x","0.0"); ("y","0.0"); ("z","z0")] [];
    Node "time" [("t0","t0"); ("dt","0.5e-14"); ("n","1000")] []]]].
(* /repo/examples/prepare_WG_input.xml:1-33 *)
Definition x_prepare_WG_input : node :=
 Node "teufel" [("description","Generate input field for waveguide example"); ("author","Ulf Lehnert 17.12.2021")] [
  Node "calc" [("print","frequency [Hz] = "); ("var","freq"); ("eq","1.0e12")] [];
  Node "calc" [("print","wavelength [m] = "); ("var","lambda"); ("eq","_c/freq")] [];
  Node "calc" [("print","waveguide height g [m] = "); ("var","gap"); ("eq","0.01")] [];
  Node "lattice" [] [
   Node "wave" [("name","seed"); ("type","gaussian")] [
    Node "position" [("x","0.0"); ("y","0.0"); ("z","0.0")] [];
    Node "calc" [("print","seed power [W] = "); ("var","P0"); ("eq","1e6")] [];
    Node "calc" [("print","Rayleigh range [m] = "); ("var","zR"); ("eq","1.0")] [];
    Node "calc" [("print","waist radius w0 [m] = "); ("var","w0"); ("eq","sqrt(lambda*zR/_pi)")] [];
    Node "calc" [("print","peak intensity I0 [W/m²] = "); ("var","I0"); ("eq","2.0*P0/(_pi*w0*w0)")] [];
    Node "calc" [("print","peak field E0 [V/m] = "); ("var","E0"); ("eq","sqrt(2*I0/_eps0/_c)")] [];
    Node "field" [("lambda","lambda"); ("ReA","E0"); ("ImA","0.0"); ("rayleigh","zR")] []]];
  Node "beam" [] [];
  Node "tracking" [("method","Vay"); ("delta_t","dt"); ("n","1000")] [];
  Node "observer" [] [
   Node "calc" [("print","screen position z0 = "); ("var","z0"); ("eq","0.0")] [];
   Node "calc" [("print","screen center time t0 = "); ("var","tscreen"); ("eq","0.0")] [];
   Node "screen" [("name","EntranceWG"); ("source","lattice"); ("file","EntranceWG.h5")] [
    Node "position" [("x","0.0"); ("y","0.0"); ("z","z0")] [];
    Node "hpitch" [("x","0.001"); ("y","0.0"); ("z","0.0"); ("n","40")] [];
    Node "vpitch" [("x","0.0"); ("y","0.001"); ("z","0.0"); ("n","40")] [];
    Node "time" [("t0","tscreen"); ("dt","0.5e-13"); ("n","200")] []]]].
(* /repo/examples/sdds_beam.xml:1-52 *)
Definition x_sdds_beam : node :=
 Node "teufel" [("description","Example - bunch compressor chicane with input particles from ELEGANT watch point"); ("author","Ulf Lehnert 15.9.2021")] [
  Node "lattice" [] [
   Node "calc" [("print","chicane field [T] = "); ("var","B"); ("eq","0.46")] [];
   Node "dipole" [("name","MD1"); ("type","soft edge")] [
    Node "B" [("x","0.0"); ("y","-B"); ("z","0.0")] [];
    Node "p1" [("x","0.0"); ("y","0.0"); ("z","0.630")] [];
    Node "n1" [("x","0.0"); ("y","0.0"); ("z","-1.0")] [];
    Node "p2" [("x","0.0"); ("y","0.0"); ("z","0.780")] [];
    Node "n2" [("x","0.0"); ("y","0.0"); ("z","1.0")] [];
    Node "transition" [("l1","0.005"); ("l2","0.005")] []];
   Node "dipole" [("name","MD2"); ("type","soft edge")] [
    Node "B" [("x","0.0"); ("y","B"); ("z","0.0")] [];
    Node "p1" [("x","0.0"); ("y","0.0"); ("z","1.530")] [];
    Node "n1" [("x","0.0"); ("y","0.0"); ("z","-1.0")] [];
    Node "p2" [("x","0.0"); ("y","0.0"); ("z","1.680")] [];
    Node "n2" [("x","0.0"); ("y","0.0"); ("z","1.0")] [];
    Node "transition" [("l1","0.005"); ("l2","0.005")] []];
   Node "dipole" [("name","MD3"); ("type","soft edge")] [
    Node "B" [("x","0.0"); ("y","B"); ("z","0.0")] [];
    Node "p1" [("x","0.0"); ("y","0.0"); ("z","2.070")] [];
    Node "n1" [("x","0.0"); ("y","0.0"); ("z","-1.0")] [];
    Node "p2" [("x","0.0"); ("y","0.0"); ("z","2.220")] [];
    Node "n2" [("x","0.0"); ("y","0.0"); ("z","1.0")] [];
    Node "transition" [("l1","0.005"); ("l2","0.005")] []];
   Node "dipole" [("name","MD4"); ("type","soft edge")] [
    Node "B" [("x","0.0"); ("y","-B"); ("z","0.0")] [];
    Node "p1" [("x","0.0"); ("y","0.0"); ("z","2.970")] [];
    Node "n1" [("x","0.0"); ("y","0.0"); ("z","-1.0")] [];
    Node "p2" [("x","0.0"); ("y","0.0"); ("z","3.120")] [];
    Node "n2" [("x","0.0"); ("y","0.0"); ("z","1.0")] [];
    Node "transition" [("l1","0.005"); ("l2","0.005")] []]];
  Node "beam" [] [
   Node "SDDS" [("file","tests/test.sdds")] [
    Node "log" [("file","sdds_beam_log.sdds"); ("step","10")] []]];
  Node "calc" [("print","tracking length [m] = "); ("var","total_L"); ("eq","4.0")] [];
  Node "calc" [("print","tracking total time [s] = "); ("var","total_t"); ("eq","total_L/_c")] [];
  Node "calc" [("print","dt = "); ("var","dt"); ("eq","total_t/4000")] [];
  Node "tracking" [("method","Vay"); ("delta_t","dt"); ("n","4000")] [
   Node "watch" [("step","0"); ("file","sdds_beam_initial.sdds")] [];
   Node "watch" [("step","4000"); ("file","sdds_beam_final.sdds")] []];
  Node "observer" [] []].
(* /repo/examples/single_charge_wiggler.xml:1-41 *)
Definition x_single_charge_wiggler : node :=
 Node "teufel" [("description","Unduator radiation emission from a point charge"); ("author","Ulf Lehnert 14.9.2017")] [
  Node "calc" [("print","beam energy [eV] = "); ("var","E_beam"); ("eq","26.0e6")] [];
  Node "calc" [("print","gamma = "); ("var","gamma"); ("eq","E_beam/_mec2")] [];
  Node "calc" [("print","charge [nC] = "); ("var","charge"); ("eq","-1.0")] [];
  Node "calc" [("print","freq [Hz] = "); ("var","f"); ("eq","1.0e12")] [];
  Node "calc" [("print","lambda [m] = "); ("var","lambda"); ("eq","_c/f")] [];
  Node "calc" [("var","lambda_U"); ("eq","0.300")] [];
  Node "lattice" [] [
   Node "undulator" [("name","U300"); ("type","planar")] [
    Node "calc" [("print","K_rms(U300) = "); ("var","K_rms"); ("eq","sqrt(lambda/lambda_U*2*gamma*gamma-1)")] [];
    Node "field" [("B","K_rms*sqrt(2)/_c*2*_pi*_mec2/lambda_U"); ("period","lambda_U"); ("N","8")] [];
    Node "position" [("x","0.0"); ("y","0.0"); ("z","2.0")] []]];
  Node "beam" [] [
   Node "particle" [("gamma","gamma"); ("charge","1.0e-9*charge"); ("cmr","-1.0")] [
    Node "position" [("x","0.0"); ("y","0.0"); ("z","0.0")] [];
    Node "momentum" [("x","0.0"); ("y","0.0"); ("z","1.0")] []]];
  Node "calc" [("print","tracking length [m] = "); ("var","total_L"); ("eq","4.0")] [];
  Node "calc" [("print","tracking total time [s] = "); ("var","total_t"); ("eq","total_L/_c")] [];
  Node "calc" [("print","dt = "); ("var","dt"); ("eq","total_t/4000")] [];
  Node "tracking" [("method","Vay"); ("delta_t","dt"); ("n","4000")] [];
  Node "observer" [] [
   Node "calc" [("print","screen position z0 = "); ("var","z0"); ("eq","10.0")] [];
   Node "calc" [("print","screen start time t0 = "); ("var","t0"); ("eq","z0/_c")] [];
   Node "screen" [("file","single_charge_screen_10m.h5")] [
    Node "position" [("x","0.0"); ("y","0.0"); ("z","z0")] [];
    Node "hpitch" [("x","0.01"); ("y","0.0"); ("z","0.0"); ("n","41")] [];
    Node "vpitch" [("x","0.0"); ("y","0.01"); ("z","0.0"); ("n","41")] [];
    Node "time" [("t0","t0"); ("dt","1e-13"); ("n","300")] []]]].
(* /repo/examples/space_charge.xml:1-61 *)
Definition x_space_charge : node :=
 Node "teufel" [("description","Space charge field of a particle"); ("author","Ulf Lehnert 19.2.2019")] [
  Node "lattice" [] [];
  Node "calc" [("print","gamma = "); ("var","gamma"); ("eq","5.0")] [];
  Node "calc" [("print","beta = "); ("var","beta"); ("eq","sqrt(1.0-1.0/(gamma*gamma))")] [];
  Node "beam" [] [
   Node "bunch" [("gamma","gamma"); ("charge","1.0e-12"); ("cmr","-1.0"); ("n","1")] [
    Node "position" [("x","0.0"); ("y","0.0"); ("z","0.0"); ("zrms","0.0")] [];
    Node "momentum" [("x","0.0"); ("y","0.0"); ("z","1.0"); ("delta","0.0")] []]];
  Node "calc" [("print","tracking length [m] = "); ("var","total_L"); ("eq","1.25")] [];
  Node "calc" [("print","tracking total time [s] = "); ("var","total_t"); ("eq","total_L/beta/_c")] [];
  Node "calc" [("print","dt = "); ("var","dt"); ("eq","total_t/5000")] [];
  Node "tracking" [("method","Vay"); ("delta_t","dt"); ("n","5000")] [];
  Node "observer" [] [
   Node "snapshot" [("file","Space_charge_0000.h5")] [
    Node "calc" [("print","tobs = "); ("var","tobs"); ("eq","0")] [];
    Node "calc" [("print","zobs = "); ("var","zobs"); ("eq","tobs*beta*_c")] [];
    Node "time" [("t0","tobs")] [];
    Node "position" [("x","0.0"); ("y","0.0"); ("z","zobs")] [];
    Node "hpitch" [("x","0.000010"); ("y","0.0"); ("z","0.0"); ("n","201")] [];
    Node "vpitch" [("x","0.0"); ("y","0.0"); ("z","0.000010"); ("n","201")] []];
   Node "snapshot" [("file","Space_charge_0001.h5")] [
    Node "calc" [("print","tobs = "); ("var","tobs"); ("eq","1.1*dt")] [];
    Node "calc" [("print","zobs = "); ("var","zobs"); ("eq","tobs*beta*_c")] [];
    Node "time" [("t0","tobs")] [];
    Node "position" [("x","0.0"); ("y","0.0"); ("z","zobs")] [];
    Node "hpitch" [("x","0.000010"); ("y","0.0"); ("z","0.0"); ("n","201")] [];
    Node "vpitch" [("x","0.0"); ("y","0.0"); ("z","0.000010"); ("n","201")] []];
   Node "snapshot" [("file","Space_charge_0100.h5")] [
    Node "calc" [("print","tobs = "); ("var","tobs"); ("eq","100.2*dt")] [];
    Node "calc" [("print","zobs = "); ("var","zobs"); ("eq","tobs*beta*_c")] [];
    Node "time" [("t0","tobs")] [];
    Node "position" [("x","0.0"); ("y","0.0"); ("z","zobs")] [];
    Node "hpitch" [("x","0.000010"); ("y","0.0"); ("z","0.0"); ("n","201")] [];
    Node "vpitch" [("x","0.0"); ("y","0.0"); ("z","0.000010"); ("n","201")] []];
   Node "snapshot" [("file","Space_charge_4001.h5")] [
    Node "calc" [("print","tobs = "); ("var","tobs"); ("eq","4000.1*dt")] [];
    Node "calc" [("print","zobs = "); ("var","zobs"); ("eq","tobs*beta*_c")] [];
    Node "time" [("t0","tobs")] [];
    Node "position" [("x","0.0"); ("y","0.0"); ("z","zobs")] [];
    Node "hpitch" [("x","0.000010"); ("y","0.0"); ("z","0.0"); ("n","201")] [];
    Node "vpitch" [("x","0.0"); ("y","0.0"); ("z","0.000010"); ("n","201")] []];
   Node "snapshot" [("file","Space_charge_4002.h5")] [
    Node "calc" [("print","tobs = "); ("var","tobs"); ("eq","4000.2*dt")] [];
    Node "calc" [("print","zobs = "); ("var","zobs"); ("eq","tobs*beta*_c")] [];
    Node "time" [("t0","tobs")] [];
    Node "position" [("x","0.0"); ("y","0.0"); ("z","zobs")] [];
    Node "hpitch" [("x","0.000010"); ("y","0.0"); ("z","0.0"); ("n","201")] [];
    Node "vpitch" [("x","0.0"); ("y","0.0"); ("z","0.000010"); ("n","201")] []]]].
(* /repo/examples/test_source.xml:1-54 *)
Definition x_test_source : node :=
 Node "teufel" [("description","Radiation propagation through a parallel-plate waveguide"); ("author","Ulf Lehnert 17.12.2021")] [
  Node "calc" [("print","waveguide height g [m] = "); ("var","gap"); ("eq","0.01")] [];
  Node "lattice" [] [
   Node "screen" [("name","SourceScreen"); ("file","Source.h5")] [
    Node "position" [("x","0.0"); ("y","0.0"); ("z","0.0"); ("t","0.0")] []]];
  Node "beam" [] [];
  Node "tracking" [("method","Vay"); ("delta_t","1e-12"); ("n","100")] [];
  Node "observer" [] [
   Node "calc" [("print","screen position z0 = "); ("var","z0"); ("eq","1.0")] [];
   Node "calc" [("print","screen center time t0 = "); ("var","tscreen"); ("eq","z0/_c-0.4e-11")] [];
   Node "screen" [("file","Propagated.h5"); ("source","lattice")] [
    Node "position" [("x","0.0"); ("y","0.0"); ("z","z0")] [];
    Node "hpitch" [("x","0.001"); ("y","0.0"); ("z","0.0"); ("n","40")] [];
    Node "vpitch" [("x","0.0"); ("y","0.001"); ("z","0.0"); ("n","40")] [];
    Node "time" [("t0","tscreen"); ("dt","0.4e-13"); ("n","500")] []];
   Node "point" [("file","Prop_001000_Obs.sdds"); ("source","lattice")] [
    Node "calc" [("var","zobs"); ("eq","0.1000")] [];
    Node "position" [("x","0.0"); ("y","0.0"); ("z","zobs")] [];
    Node "time" [("t0","zobs/_c-0.4e-11"); ("dt","0.2e-13"); ("n","1000")] []];
   Node "point" [("file","Prop_001001_Obs.sdds"); ("source","lattice")] [
    Node "calc" [("var","zobs"); ("eq","0.1001")] [];
    Node "position" [("x","0.0"); ("y","0.0"); ("z","zobs")] [];
    Node "time" [("t0","zobs/_c-0.4e-11"); ("dt","0.2e-13"); ("n","1000")] []];
   Node "point" [("file","Prop_010000_Obs.sdds"); ("source","lattice")] [
    Node "calc" [("var","zobs"); ("eq","1.0000")] [];
    Node "position" [("x","0.0"); ("y","0.0"); ("z","zobs")] [];
    Node "time" [("t0","zobs/_c-0.4e-11"); ("dt","0.2e-13"); ("n","1000")] []];
   Node "point" [("file","Prop_010001_Obs.sdds"); ("source","lattice")] [
    Node "calc" [("var","zobs"); ("eq","1.0001")] [];
    Node "position" [("x","0.0"); ("y","0.0"); ("z","zobs")] [];
    Node "time" [("t0","zobs/_c-0.4e-11"); ("dt","0.2e-13"); ("n","1000")] []];
   Node "point" [("file","Prop_100000_Obs.sdds"); ("source","lattice")] [
    Node "calc" [("var","zobs"); ("eq","10.0000")] [];
    Node "position" [("x","0.0"); ("y","0.0"); ("z","zobs")] [];
    Node "time" [("t0","zobs/_c-0.4e-11"); ("dt","0.2e-13"); ("n","1000")] []];
   Node "point" [("file","Prop_100001_Obs.sdds"); ("source","lattice")] [
    Node "calc" [("var","zobs"); ("eq","10.0001")] [];
    Node "position" [("x","0.0"); ("y","0.0"); ("z","zobs")] [];
    Node "time" [("t0","zobs/_c-0.4e-11"); ("dt","0.2e-13"); ("n","1000")] []]]].
(* /repo/examples/undulator_matching.xml:1-48 *)
Definition x_undulator_matching : node :=
 Node "teufel" [("description","Test case - beam matching to undulator"); ("author","Ulf Lehnert 14.9.2021")] [
  Node "calc" [("print","beam energy [eV] = "); ("var","E_beam"); ("eq","20.0e6")] [];
  Node "calc" [("print","gamma = "); ("var","gamma"); ("eq","E_beam/_mec2")] [];
  Node "calc" [("print","beta*gamma = "); ("var","betagamma"); ("eq","sqrt(gamma*gamma-1)")] [];
  Node "calc" [("print","freq [Hz] = "); ("var","f"); ("eq","1.0e12")] [];
  Node "calc" [("print","lambda [m] = "); ("var","lambda"); ("eq","_c/f")] [];
  Node "calc" [("var","lambda_U"); ("eq","0.100")] [];
  Node "lattice" [] [
   Node "undulator" [("name","U100"); ("type","planar")] [
    Node "calc" [("print","K_rms(U100) = "); ("var","K_rms"); ("eq","sqrt(lambda/lambda_U*2*gamma*gamma-1)")] [];
    Node "field" [("B","K_rms*sqrt(2)/_c*2*_pi*_mec2/lambda_U"); ("period","lambda_U"); ("N","10")] [];
    Node "calc" [("var","u100_center"); ("eq","1.0")] [];
    Node "position" [("x","0.0"); ("y","0.0"); ("z","u100_center")] []]];
  Node "beam" [] [
   Node "bunch" [("gamma","gamma"); ("charge","-1.0e-9"); ("cmr","-1.0"); ("n","4000")] [
    Node "calc" [("var","norm_emit"); ("eq","10.0e-6")] [];
    Node "calc" [("print","geometric emittance [m rad] = "); ("var","emit"); ("eq","norm_emit/betagamma")] [];
    Node "calc" [("var","betax"); ("eq","0.5")] [];
    Node "calc" [("print","matched beta_y [m] = "); ("var","betay"); ("eq","gamma*lambda_U/(2*_pi*K_rms)")] [];
    Node "calc" [("print","matched beam size y_rms [m] = "); ("var","sigmay"); ("eq","sqrt(emit*betay)")] [];
    Node "position" [("x","0.0"); ("y","0.0"); ("z","0.0"); ("xrms","sqrt(emit*betax)"); ("yrms","sigmay")] [];
    Node "momentum" [("x","0.0"); ("y","0.0"); ("z","1.0"); ("xrms","sqrt(emit/betax)"); ("yrms","sqrt(emit/betay)")] [];
    Node "correlations" [] [
     Node "linear" [("indep","3"); ("dep","0"); ("factor","-1.0/betagamma")] [];
     Node "linear" [("indep","4"); ("dep","1"); ("factor","-0.515/betagamma")] []];
    Node "log" [("file","matching.sdds"); ("step","10")] []]];
  Node "calc" [("print","tracking length [m] = "); ("var","total_L"); ("eq","2.0")] [];
  Node "calc" [("print","tracking total time [s] = "); ("var","total_t"); ("eq","total_L/_c")] [];
  Node "calc" [("print","dt = "); ("var","dt"); ("eq","total_t/4000")] [];
  Node "tracking" [("method","Vay"); ("delta_t","dt"); ("n","4000")] [];
  Node "observer" [] []].
(* /repo/examples/waveguide.xml:1-28 *)
Definition x_waveguide : node :=
 Node "teufel" [("description","Radiation propagation through a parallel-plate waveguide"); ("author","Ulf Lehnert 17.12.2021")] [
  Node "calc" [("print","waveguide height g [m] = "); ("var","gap"); ("eq","0.01")] [];
  Node "lattice" [] [
   Node "screen" [("name","Entrance"); ("file","EntranceWG.h5")] [
    Node "position" [("x","0.0"); ("y","0.0"); ("z","0.0"); ("t","0.0")] []]];
  Node "beam" [] [];
  Node "tracking" [("method","Vay"); ("delta_t","1e-12"); ("n","100")] [];
  Node "observer" [] [
   Node "calc" [("print","screen position z0 = "); ("var","z0"); ("eq","1.0")] [];
   Node "calc" [("print","screen center time t0 = "); ("var","tscreen"); ("eq","z0/_c-0.4e-11")] [];
   Node "point" [("file","SourceScreen_Obs.sdds"); ("source","lattice")] [
    Node "position" [("x","0.0"); ("y","0.0"); ("z","z0")] [];
    Node "time" [("t0","tscreen"); ("dt","0.4e-13"); ("n","500")] []];
   Node "screen" [("file","ExitWG.h5"); ("source","lattice")] [
    Node "position" [("x","0.0"); ("y","0.0"); ("z","z0")] [];
    Node "hpitch" [("x","0.001"); ("y","0.0"); ("z","0.0"); ("n","40")] [];
    Node "vpitch" [("x","0.0"); ("y","0.001"); ("z","0.0"); ("n","40")] [];
    Node "time" [("t0","tscreen"); ("dt","0.4e-13"); ("n","500")] []]]].
(* /repo/tests/create_source.xml:1-69 *)
Definition t_create_source : node :=
 Node "teufel" [("description","Generate input field for waveguide example"); ("author","Ulf Lehnert 17.12.2021")] [
  Node "calc" [("print","frequency [Hz] = "); ("var","freq"); ("eq","1.0e12")] [];
  Node "calc" [("print","wavelength [m] = "); ("var","lambda"); ("eq","_c/freq")] [];
  Node "calc" [("print","waveguide height g [m] = "); ("var","gap"); ("eq","0.01")] [];
  Node "lattice" [] [
   Node "wave" [("name","seed"); ("type","packet")] [
    Node "position" [("x","0.0"); ("y","0.0"); ("z","0.0"); ("t","0.625e-11")] [];
    Node "calc" [("print","seed power [W] = "); ("var","P0"); ("eq","1e6")] [];
    Node "calc" [("print","Rayleigh range [m] = "); ("var","zR"); ("eq","1.0")] [];
    Node "calc" [("print","waist radius w0 [m] = "); ("var","w0"); ("eq","sqrt(lambda*zR/_pi)")] [];
    Node "calc" [("print","peak intensity I0 [W/m²] = "); ("var","I0"); ("eq","2.0*P0/(_pi*w0*w0)")] [];
    Node "calc" [("print","peak field E0 [V/m] = "); ("var","E0"); ("eq","sqrt(2*I0/_eps0/_c)")] [];
    Node "field" [("lambda","lambda"); ("ReA","E0"); ("ImA","0.0"); ("rayleigh","zR"); ("tau","2.5/freq")] []]];
  Node "beam" [] [];
  Node "tracking" [("method","Vay"); ("delta_t","dt"); ("n","1000")] [];
  Node "observer" [] [
   Node "screen" [("name","SourceScreen"); ("source","lattice"); ("file","Source.h5")] [
    Node "position" [("x","0.0"); ("y","0.0"); ("z","0.0")] [];
    Node "hpitch" [("x","0.001"); ("y","0.0"); ("z","0.0"); ("n","40")] [];
    Node "vpitch" [("x","0.0"); ("y","0.001"); ("z","0.0"); ("n","40")] [];
    Node "time" [("t0","0.0"); ("dt","0.5e-13"); ("n","250")] []];
   Node "calc" [("print","screen position z0 = "); ("var","z0"); ("eq","1.0")] [];
   Node "calc" [("print","screen center time t0 = "); ("var","tscreen"); ("eq","z0/_c-0.4e-11")] [];
   Node "screen" [("file","Reference.h5"); ("source","lattice")] [
    Node "position" [("x","0.0"); ("y","0.0"); ("z","1.0")] [];
    Node "hpitch" [("x","0.001"); ("y","0.0"); ("z","0.0"); ("n","40")] [];
    Node "vpitch" [("x","0.0"); ("y","0.001"); ("z","0.0"); ("n","40")] [];
    Node "time" [("t0","tscreen"); ("dt","0.4e-13"); ("n","500")] []];
   Node "point" [("file","Ref_001000_Obs.sdds"); ("source","lattice")] [
    Node "calc" [("var","zobs"); ("eq","0.1000")] [];
    Node "position" [("x","0.0"); ("y","0.0"); ("z","zobs")] [];
    Node "time" [("t0","zobs/_c-0.4e-11"); ("dt","0.2e-13"); ("n","1000")] []];
   Node "point" [("file","Ref_001001_Obs.sdds"); ("source","lattice")] [
    Node "calc" [("var","zobs"); ("eq","0.1001")] [];
    Node "position" [("x","0.0"); ("y","0.0"); ("z","zobs")] [];
    Node "time" [("t0","zobs/_c-0.4e-11"); ("dt","0.2e-13"); ("n","1000")] []];
   Node "point" [("file","Ref_010000_Obs.sdds"); ("source","lattice")] [
    Node "calc" [("var","zobs"); ("eq","1.0000")] [];
    Node "position" [("x","0.0"); ("y","0.0"); ("z","zobs")] [];
    Node "time" [("t0","zobs/_c-0.4e-11"); ("dt","0.2e-13"); ("n","1000")] []];
   Node "point" [("file","Ref_010001_Obs.sdds"); ("source","lattice")] [
    Node "calc" [("var","zobs"); ("eq","1.0001")] [];
    Node "position" [("x","0.0"); ("y","0.0"); ("z","zobs")] [];
    Node "time" [("t0","zobs/_c-0.4e-11"); ("dt","0.2e-13"); ("n","1000")] []];
   Node "point" [("file","Ref_100000_Obs.sdds"); ("source","lattice")] [
    Node "calc" [("var","zobs"); ("eq","10.0000")] [];
    Node "position" [("x","0.0"); ("y","0.0"); ("z","zobs")] [];
    Node "time" [("t0","zobs/_c-0.4e-11"); ("dt","0.2e-13"); ("n","1000")] []];
   Node "point" [("file","Ref_100001_Obs.sdds"); ("source","lattice")] [
    Node "calc" [("var","zobs"); ("eq","10.0001")] [];
    Node "position" [("x","0.0"); ("y","0.0"); ("z","zobs")] [];
    Node "time" [("t0","zobs/_c-0.4e-11"); ("dt","0.2e-13"); ("n","1000")] []]]].
(* /repo/tests/fel1d_modulation.xml:1-55 *)
Definition t_fel1d_modulation : node :=
 Node "teufel" [("description","Energy modulation of an electron beam by FEL interaction with an electromagnetic wave inside an undulator"); ("author","Ulf Lehnert 25.4.2023")] [
  Node "calc" [("print","beam kinetic energy [eV] = "); ("var","E_beam"); ("eq","30.0e6")] [];
  Node "calc" [("print","gamma = "); ("var","gamma"); ("eq","E_beam/_mec2+1.0")] [];
  Node "calc" [("print","resonance wavelength [m] = "); ("var","lambda_R"); ("eq","100.0e-6")] [];
  Node "calc" [("var","lambda_U"); ("eq","0.100")] [];
  Node "lattice" [] [
   Node "undulator" [("name","U100"); ("type","planar")] [
    Node "calc" [("print","K(U100) = "); ("var","K"); ("eq","sqrt(2*(lambda_R/lambda_U*2*gamma*gamma-1))")] [];
    Node "field" [("B","K/_c*2*_pi*_mec2/lambda_U"); ("period","lambda_U"); ("N","14")] [];
    Node "position" [("x","0.0"); ("y","0.0"); ("z","1.0")] []]];
  Node "beam" [] [
   Node "bunch" [("gamma","gamma"); ("charge","_e"); ("cmr","-1.0"); ("n","200")] [
    Node "position" [("x","0.0"); ("y","0.0"); ("z","0.0"); ("zrms","0.5*lambda_R")] [];
    Node "momentum" [("x","0.0"); ("y","0.0"); ("z","1.0"); ("delta","0.0")] [];
    Node "log" [("file","fel1d-modulation_beam.sdds"); ("step","1"); ("bunching-freq","_c/lambda_R")] [];
    Node "trajectories" [("file","fel1d-modulation_trajectories.hdf5"); ("step","100"); ("particles","100")] []]];
  Node "calc" [("print","tracking length [m] = "); ("var","total_L"); ("eq","2.0+14*lambda_R")] [];
  Node "calc" [("print","tracking total time [s] = "); ("var","total_t"); ("eq","total_L/_c")] [];
  Node "calc" [("print","dz = "); ("var","dz"); ("eq","0.04*lambda_R")] [];
  Node "calc" [("print","dt = "); ("var","dt"); ("eq","dz/_c")] [];
  Node "calc" [("print","tracking steps = "); ("var","n_tracking"); ("eq","total_t/dt")] [];
  Node "tracking" [("method","Vay"); ("delta_t","dt"); ("n","n_tracking")] [
   Node "fel1d" [("N","10000")] [
    Node "position" [("x","0.0"); ("y","0.0"); ("z","0.020")] [];
    Node "prop" [("x","0.0"); ("y","0.0"); ("z","1.0")] [];
    Node "pol" [("x","1.0"); ("y","0.0"); ("z","0.0")] [];
    Node "calc" [("var","z_R"); ("eq","0.5")] [];
    Node "calc" [("var","w_0"); ("eq","sqrt(z_R*lambda_R/_pi)")] [];
    Node "mode" [("zR","z_R"); ("w0","w_0"); ("zwaist","0.75")] [];
    Node "seed" [("E0","1.0e6"); ("lambda","lambda_R"); ("tau","1.5e-11"); ("tstart","0.0205/_c")] [];
    Node "log" [("file","fel1d-modulation_field.hdf5"); ("step","100")] []];
   Node "calc" [("var","start_step"); ("eq","0.25*n_tracking")] [];
   Node "calc" [("var","stop_step"); ("eq","0.75*n_tracking")] [];
   Node "watch" [("step","0"); ("file","fel1d-modulation_initial.h5")] [];
   Node "watch" [("step","start_step"); ("file","fel-modulation_start.h5")] [];
   Node "watch" [("step","stop_step"); ("file","fel-modulation_stop.h5")] [];
   Node "watch" [("step","n_tracking"); ("file","fel1d-modulation_final.h5")] []];
  Node "observer" [] []].
(* /repo/tests/fel1d_radiation.xml:1-52 *)
Definition t_fel1d_radiation : node :=
 Node "teufel" [("description","Energy modulation of an electron beam by FEL interaction with an electromagnetic wave inside an undulator"); ("author","Ulf Lehnert 25.4.2023")] [
  Node "calc" [("print","beam kinetic energy [eV] = "); ("var","E_beam"); ("eq","30.0e6")] [];
  Node "calc" [("print","gamma = "); ("var","gamma"); ("eq","E_beam/_mec2+1.0")] [];
  Node "calc" [("print","resonance wavelength [m] = "); ("var","lambda_R"); ("eq","100.0e-6")] [];
  Node "calc" [("var","lambda_U"); ("eq","0.100")] [];
  Node "lattice" [] [
   Node "undulator" [("name","U100"); ("type","planar")] [
    Node "calc" [("print","K(U100) = "); ("var","K"); ("eq","sqrt(2*(lambda_R/lambda_U*2*gamma*gamma-1))")] [];
    Node "field" [("B","K/_c*2*_pi*_mec2/lambda_U"); ("period","lambda_U"); ("N","14")] [];
    Node "position" [("x","0.0"); ("y","0.0"); ("z","1.0")] []]];
  Node "beam" [] [
   Node "particle" [("gamma","gamma"); ("charge","1.0e-9"); ("cmr","-1.0")] [
    Node "position" [("x","0.0"); ("y","0.0"); ("z","0.0")] [];
    Node "momentum" [("x","0.0"); ("y","0.0"); ("z","1.0")] []];
   Node "probe" [("file","fel1d-radiation_probe.hdf5"); ("number","1"); ("step","100")] []];
  Node "calc" [("print","tracking length [m] = "); ("var","total_L"); ("eq","2.0+14*lambda_R")] [];
  Node "calc" [("print","tracking total time [s] = "); ("var","total_t"); ("eq","total_L/_c")] [];
  Node "calc" [("print","dz = "); ("var","dz"); ("eq","0.02*lambda_R")] [];
  Node "calc" [("print","dt = "); ("var","dt"); ("eq","dz/_c")] [];
  Node "calc" [("print","tracking steps = "); ("var","n_tracking"); ("eq","total_t/dt")] [];
  Node "tracking" [("method","Vay"); ("delta_t","dt"); ("n","n_tracking")] [
   Node "fel1d" [("N","2000")] [
    Node "position" [("x","0.0"); ("y","0.0"); ("z","0.001")] [];
    Node "prop" [("x","0.0"); ("y","0.0"); ("z","1.0")] [];
    Node "pol" [("x","1.0"); ("y","0.0"); ("z","0.0")] [];
    Node "calc" [("var","z_R"); ("eq","1.0")] [];
    Node "calc" [("var","w_0"); ("eq","sqrt(z_R*lambda_R/_pi)")] [];
    Node "mode" [("zR","z_R"); ("w0","w_0"); ("zwaist","1.0")] [];
    Node "log" [("file","fel1d-radiation_field.hdf5"); ("step","100")] []]];
  Node "observer" [] [
   Node "snapshot" [("file","fel1d-radiation_snap_2000.h5")] [
    Node "time" [("t0","total_t")] [];
    Node "position" [("x","0.0"); ("y","0.0"); ("z","total_t*_c-300*dz")] [];
    Node "hpitch" [("x","0.0"); ("y","0.0"); ("z","dz"); ("n","1000")] [];
    Node "vpitch" [("x","0.0005"); ("y","0.0"); ("z","0.0"); ("n","51")] []]]].
(* /repo/tests/fel_modulation.xml:1-45 *)
Definition t_fel_modulation : node :=
 Node "teufel" [("description","Energy modulation of an electron beam by FEL interaction with an electromagnetic wave inside an undulator"); ("author","Ulf Lehnert 23.4.2023")] [
  Node "calc" [("print","beam kinetic energy [eV] = "); ("var","E_beam"); ("eq","30.0e6")] [];
  Node "calc" [("print","gamma = "); ("var","gamma"); ("eq","E_beam/_mec2+1.0")] [];
  Node "calc" [("print","resonance wavelength [m] = "); ("var","lambda_R"); ("eq","100.0e-6")] [];
  Node "calc" [("var","lambda_U"); ("eq","0.100")] [];
  Node "lattice" [] [
   Node "undulator" [("name","U100"); ("type","planar")] [
    Node "calc" [("print","K(U100) = "); ("var","K"); ("eq","sqrt(2*(lambda_R/lambda_U*2*gamma*gamma-1))")] [];
    Node "field" [("B","K/_c*2*_pi*_mec2/lambda_U"); ("period","lambda_U"); ("N","14")] [];
    Node "position" [("x","0.0"); ("y","0.0"); ("z","1.0")] []];
   Node "wave" [("name","seed"); ("type","gaussian")] [
    Node "calc" [("print","Rayleigh range [m] = "); ("var","zR"); ("eq","100.0")] [];
    Node "calc" [("print","waist radius w0 [m] = "); ("var","w0"); ("eq","sqrt(lambda_R*zR/_pi)")] [];
    Node "calc" [("print","peak field E0 [V/m] = "); ("var","E0"); ("eq","1e6")] [];
    Node "position" [("x","0.0"); ("y","0.0"); ("z","1.0")] [];
    Node "field" [("lambda","lambda_R"); ("ReA","E0"); ("ImA","0.0"); ("rayleigh","zR")] []]];
  Node "beam" [] [
   Node "bunch" [("gamma","gamma"); ("charge","1.0e-9"); ("cmr","-1.0"); ("n","500")] [
    Node "position" [("x","0.0"); ("y","0.0"); ("z","0.0"); ("zrms","0.5*lambda_R")] [];
    Node "momentum" [("x","0.0"); ("y","0.0"); ("z","1.0"); ("delta","0.0")] [];
    Node "log" [("file","fel-modulation_beam.sdds"); ("step","1"); ("bunching-freq","_c/lambda_R")] []]];
  Node "calc" [("print","tracking length [m] = "); ("var","total_L"); ("eq","2.0+14*lambda_R")] [];
  Node "calc" [("print","tracking total time [s] = "); ("var","total_t"); ("eq","total_L/_c")] [];
  Node "calc" [("print","dt = "); ("var","dt"); ("eq","total_t/4000")] [];
  Node "tracking" [("method","Vay"); ("delta_t","dt"); ("n","4000")] [
   Node "watch" [("step","0"); ("file","fel-modulation_initial.h5")] [];
   Node "watch" [("step","1000"); ("file","fel-modulation_start.h5")] [];
   Node "watch" [("step","3000"); ("file","fel-modulation_stop.h5")] [];
   Node "watch" [("step","4000"); ("file","fel-modulation_final.h5")] []];
  Node "observer" [] []].
(* /repo/tests/test_source.xml:1-54 *)
Definition t_test_source : node :=
 Node "teufel" [("description","Radiation propagation through a parallel-plate waveguide"); ("author","Ulf Lehnert 17.12.2021")] [
  Node "calc" [("print","waveguide height g [m] = "); ("var","gap"); ("eq","0.01")] [];
  Node "lattice" [] [
   Node "screen" [("name","SourceScreen"); ("file","Source.h5")] [
    Node "position" [("x","0.0"); ("y","0.0"); ("z","0.0"); ("t","0.0")] []]];
  Node "beam" [] [];
  Node "tracking" [("method","Vay"); ("delta_t","1e-12"); ("n","100")] [];
  Node "observer" [] [
   Node "calc" [("print","screen position z0 = "); ("var","z0"); ("eq","1.0")] [];
   Node "calc" [("print","screen center time t0 = "); ("var","tscreen"); ("eq","z0/_c-0.4e-11")] [];
   Node "screen" [("file","Propagated.h5"); ("source","lattice")] [
    Node "position" [("x","0.0"); ("y","0.0"); ("z","z0")] [];
    Node "hpitch" [("x","0.001"); ("y","0.0"); ("z","0.0"); ("n","40")] [];
    Node "vpitch" [("x","0.0"); ("y","0.001"); ("z","0.0"); ("n","40")] [];
    Node "time" [("t0","tscreen"); ("dt","0.4e-13"); ("n","500")] []];
   Node "point" [("file","Prop_001000_Obs.sdds"); ("source","lattice")] [
    Node "calc" [("var","zobs"); ("eq","0.1000")] [];
    Node "position" [("x","0.0"); ("y","0.0"); ("z","zobs")] [];
    Node "time" [("t0","zobs/_c-0.4e-11"); ("dt","0.2e-13"); ("n","1000")] []];
   Node "point" [("file","Prop_001001_Obs.sdds"); ("source","lattice")] [
    Node "calc" [("var","zobs"); ("eq","0.1001")] [];
    Node "position" [("x","0.0"); ("y","0.0"); ("z","zobs")] [];
    Node "time" [("t0","zobs/_c-0.4e-11"); ("dt","0.2e-13"); ("n","1000")] []];
   Node "point" [("file","Prop_010000_Obs.sdds"); ("source","lattice")] [
    Node "calc" [("var","zobs"); ("eq","1.0000")] [];
    Node "position" [("x","0.0"); ("y","0.0"); ("z","zobs")] [];
    Node "time" [("t0","zobs/_c-0.4e-11"); ("dt","0.2e-13"); ("n","1000")] []];
   Node "point" [("file","Prop_010001_Obs.sdds"); ("source","lattice")] [
    Node "calc" [("var","zobs"); ("eq","1.0001")] [];
    Node "position" [("x","0.0"); ("y","0.0"); ("z","zobs")] [];
    Node "time" [("t0","zobs/_c-0.4e-11"); ("dt","0.2e-13"); ("n","1000")] []];
   Node "point" [("file","Prop_100000_Obs.sdds"); ("source","lattice")] [
    Node "calc" [("var","zobs"); ("eq","10.0000")] [];
    Node "position" [("x","0.0"); ("y","0.0"); ("z","zobs")] [];
    Node "time" [("t0","zobs/_c-0.4e-11"); ("dt","0.2e-13"); ("n","1000")] []];
   Node "point" [("file","Prop_100001_Obs.sdds"); ("source","lattice")] [
    Node "calc" [("var","zobs"); ("eq","10.0001")] [];
    Node "position" [("x","0.0"); ("y","0.0"); ("z","zobs")] [];
    Node "time" [("t0","zobs/_c-0.4e-11"); ("dt","0.2e-13"); ("n","1000")] []]]].
Definition shipped : list node :=
  [x_CSR;
   x_compton_backscattering_10P;
   x_compton_backscattering_1P;
   x_create_source;
   x_dali_tgu200;
   x_dali_u100_radiator;
   x_diffraction_radiation;
   x_elbe_CDR;
   x_elbe_EOS;
   x_elbe_u300_snapshot;
   x_elbe_u300;
   x_elbe_u300_200pC;
   x_fel_interaction;
   x_prepare_WG_input;
   x_sdds_beam;
   x_single_charge_wiggler;
   x_space_charge;
   x_test_source;
   x_undulator_matching;
   x_waveguide;
   t_create_source;
   t_fel1d_modulation;
   t_fel1d_radiation;
   t_fel_modulation;
   t_test_source].
