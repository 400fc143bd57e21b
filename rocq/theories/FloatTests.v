(** The f32 operations of BenchMain.v against a processor: rates and the way they are printed, recorded by
    hardware/floats.c (which contains nothing of /repo).  A test, not a proof; [Check] leaves nothing in the compiled file. *)
From Coq Require Import String Ascii.
From Coq Require Import NArith ZArith List Bool.
From Verif Require Import BenchMain PropBenchMain.
Import ListNotations.
Open Scope N_scope.

(** The bits of an f32. *)
Definition of_bits (b : N) : f32 :=
  let ex := (b / 2 ^ 23) mod 256 in
  let m := b mod 2 ^ 23 in
  if ex =? 255 then (if m =? 0 then Infinite else NaN)
  else if ex =? 0 then Finite m (-149) else Finite (m + 2 ^ 23) (Z.of_N ex - 150).
Definition same (x y : f32) : bool :=
  match x, y with
  | Infinite, Infinite | NaN, NaN => true
  | Finite m e, Finite m' e' => let (p, q) := fraction m e in let (p', q') := fraction m' e' in p * q' =? p' * q
  | _, _ => false
  end.
(** (bytes, nanoseconds), the bits of the rate, and what is printed. *)
Definition recorded : list ((N * N) * (N * string)) := [
  ((51200000000, 0), (2139095040, "inf"%string));
  ((51200000000, 0), (2139095040, "inf"%string));
  ((51200000000, 0), (2139095040, "inf"%string));
  ((51200000000, 340282366920938312347647155603121373183), (0, "0.000"%string));
  ((240817, 340282366920938463463374603033721700351), (0, "0.000"%string));
  ((4, 340282366920783720958463934897405820927), (0, "0.000"%string));
  ((51200000000, 340282366920938463463374606332256583679), (0, "0.000"%string));
  ((1, 340282366920938463463374537063024033791), (0, "0.000"%string));
  ((244, 340282366920938463463374607294329257983), (0, "0.000"%string));
  ((51200000000, 340282366919700523424089227156869087231), (0, "0.000"%string));
  ((51200000000, 340282366920938463463374605232744955903), (0, "0.000"%string));
  ((51200000000, 24934431154), (1073965739, "2.053"%string));
  ((51200000000, 2422694), (1185225471, "21133.498"%string));
  ((51200000000, 23374), (1241887248, "2190468.000"%string));
  ((165948765578472, 15716), (1344100414, "10559223808.000"%string));
  ((20006, 2583), (1089984806, "7.745"%string));
  ((51200000000, 7669), (1254866442, "6676229.000"%string));
  ((51200000000, 3027), (1266748418, "16914436.000"%string));
  ((51200000000, 7), (1339685778, "7314285568.000"%string));
  ((51200000000, 227622), (1213966741, "224934.328"%string));
  ((78, 1036), (1033515372, "0.075"%string));
  ((44941227480200118, 95750340462), (1222979021, "469358.406"%string));
  ((51200000000, 2144538902045), (1019450536, "0.024"%string));
  ((51200000000, 688), (1284370742, "74418608.000"%string));
  ((51200000000, 32672580174), (1070110088, "1.567"%string));
  ((51200000000, 26888906), (1156449329, "1904.131"%string));
  ((51200000000, 179343297), (1133428277, "285.486"%string));
  ((17864876, 91077016), (1044962276, "0.196"%string));
  ((130523004534, 39888016347), (1079077969, "3.272"%string));
  ((51200000000, 460921), (1205400825, "111081.945"%string));
  ((3614, 216417), (1015598298, "0.017"%string));
  ((51200000000, 111878554), (1139069390, "457.639"%string));
  ((51200000000, 4705865800), (1093538979, "10.880"%string));
  ((192634548433135564, 2236393218), (1285835448, "86136256.000"%string));
  ((51200000000, 502701441), (1120645902, "101.850"%string));
  ((51200000000, 229984), (1213818892, "222624.188"%string));
  ((51200000000, 52877), (1231840718, "968284.875"%string));
  ((1091496370438493095, 24551), (1445051659, "44458326360064.000"%string));
  ((51200000000, 1128), (1278027326, "45390072.000"%string));
  ((11690836500944786, 51102436313595343), (1047151453, "0.229"%string));
  ((253878936080523, 18787), (1346985492, "13513543680.000"%string));
  ((6575574311166926364, 2065219), (1413043379, "3183959867392.000"%string));
  ((1406647654073283914, 39808005623), (1275513758, "35335800.000"%string));
  ((739287497809642262, 1985), (1470717280, "372437015330816.000"%string));
  ((476093111298267, 12561), (1359819424, "37902483456.000"%string));
  ((51200000000, 28171670641420), (988690121, "0.002"%string));
  ((51200000000, 3032), (1266734472, "16886544.000"%string));
  ((51200000000, 2479215061), (1101346477, "20.652"%string));
  ((22778680488157925, 2981), (1423860745, "7641288409088.000"%string));
  ((51200000000, 3940462), (1179321754, "12993.400"%string));
  ((8277003921440, 487366411), (1183100479, "16983.123"%string));
  ((51200000000, 3), (1350455339, "17066667008.000"%string));
  ((118350, 220421), (1057584141, "0.537"%string));
  ((982433466146262298, 3093044223), (1301771467, "317626720.000"%string));
  ((51200000000, 1272881064), (1109452053, "40.224"%string));
  ((51200000000, 150), (1302512299, "341333344.000"%string));
  ((57777688412871, 1050746300661761), (1029782105, "0.055"%string));
  ((941236746799978, 3141), (1384876655, "299661492224.000"%string));
  ((51200000000, 75000828379), (1060029119, "0.683"%string));
  ((65959822587527, 22180), (1328628027, "2973842176.000"%string));
  ((51200000000, 49871), (1232774540, "1026648.750"%string));
  ((51200000000, 347), (1292678926, "147550432.000"%string));
  ((1020701, 19176308), (1029309633, "0.053"%string));
  ((51200000000, 3180), (1266003221, "16100629.000"%string));
  ((588047829, 1306), (1222368074, "450266.312"%string));
  ((4271135525649292, 8698621), (1307189787, "491012960.000"%string));
  ((51200000000, 1365), (1276057097, "37509156.000"%string));
  ((3146269, 23343), (1124518085, "134.784"%string));
  ((51200000000, 229359), (1213857717, "223230.828"%string));
  ((51200000000, 38871838), (1151640772, "1317.149"%string));
  ((30643007, 389922), (1117596881, "78.588"%string));
  ((1047227918, 454954638277666996908898486764), (489548762, "0.000"%string));
  ((5, 610237072999399729864722), (421428334, "0.000"%string));
  ((51200000000, 4346668027782955344894003999494104), (425973622, "0.000"%string));
  ((351, 4270570136928257), (699995022, "0.000"%string));
  ((51200000000, 1235553990000487930580677491596), (524529807, "0.000"%string));
  ((11, 650025021707229969465610481), (346527602, "0.000"%string));
  ((51200000000, 38663036211547462550853900), (650041512, "0.000"%string));
  ((104366573430799, 340282346638528859811704183484516925439), (381540218, "0.000"%string))].
Check (ltac:(vm_compute; reflexivity) :
  forallb (fun x => let '((len, ns), (b, s)) := x in
    same (rate_f32 ns len) (of_bits b) && String.eqb (show_f32 (rate_f32 ns len)) s) recorded = true).

(** The end of a whole report: one function is slow, and one is slow in a single process. *)
Definition demo_process (i : nat) : process :=
  Up (fun f => match f with Bench.Blake2s_hash => 256000000 | Bench.Other 3 => if Nat.eqb i 950 then 153600000 else 51200000 | _ => 51200000 end).
Definition skip (n : nat) (s : string) : string := substring n (String.length s - n) s.
Check (ltac:(vm_compute; reflexivity) :
  let out := stdout (main true demo_process (@insertion _) None (fun _ => 0) None) in
  skip (String.length out - 85) out =
  ("OpenSSL SHA-512       10.000" ++ newline ++ "sneves BLAKE2sp       9.804" ++ newline ++
   "blake2s_simd BLAKE2s  2.000" ++ newline)%string).
