(* Model of the frequency estimator: roc_audio/freq_estimator.cpp:18-154,
   freq_estimator.h:24-98 and freq_estimator_decim.cpp:11-78.

   The arithmetic of double is a parameter: any type with operations.  Theorems
   about what is computed hold for every arithmetic, so also for IEEE doubles;
   theorems about its value take real numbers. *)
From Coq Require Import ZArith List Bool.
From Verif Require Import Base.
Import ListNotations.
Local Open Scope Z_scope.
Local Open Scope res_scope.

(* double, conversion of an integer, + - * / *)
Record arith := mkArith {
  D : Type; dZ : Z -> D;
  dadd : D -> D -> D; dsub : D -> D -> D; dmul : D -> D -> D; ddiv : D -> D -> D
}.

(* freq_estimator_decim.h:22-30 *)
Definition decim_max : Z := 10.
Definition decim_len : nat := 256.
Definition decim_mask : Z := 255.

(* freq_estimator_decim.cpp:13-78: fe_decim_h, and 11: fe_decim_h_gain, in units
   of 10^-17.  As doubles these decimal numbers are rounded. *)
Definition decim_h : list Z := [
  2171816595000; 155161134900000; 54921896660000; 65852463010000; 75560598630000; 85570523520000;
  95660774970000; 105746265000000; 115604209700000; 125121744300000; 134058238500000; 142282107800000;
  149541371500000; 155708100600000; 160538463400000; 163914193400000; 165614276200000; 165562669300000;
  163576775200000; 159616954600000; 153552962000000; 145402399400000; 135090644500000; 122694892300000;
  108225399200000; 91823691040000; 73582498590000; 53726416080000; 32430229480000; 9991019033000;
  (-13357294670000); (-37240647360000); (-61391340570000); (-85383473200000); (-108895520700000); (-131468323500000);
  (-152760313400000); (-172295502900000); (-189745926800000); (-204686541100000); (-216823117800000); (-225778622600000);
  (-231319200200000); (-233131833400000); (-231053261100000); (-224888464400000); (-214630132500000); (-200227880900000);
  (-181782164100000); (-159329269100000); (-133087707200000); (-103288702700000); (-70385047000000); (-34742080610000);
  3207824193000; 43011215170000; 83869672380000; 125196995200000; 166565354400000; 206882995600000;
  245723826800000; 282206106900000; 315631157700000; 345301209000000; 370490085300000; 390590564300000;
  404962524800000; 413125474000000; 414585275600000; 409017549800000; 396112771700000; 375756318700000;
  347864022500000; 312552950300000; 269993557600000; 220556906400000; 164664385400000; 102941982900000;
  36070705390000; (-35077784560000); (-109593465500000); (-186371675200000); (-264318310700000); (-342148239700000);
  (-418635644000000); (-492368917900000); (-562029844100000); (-626185862300000); (-683460990000000); (-732478173400000);
  (-771940778900000); (-800557620800000); (-817183405200000); (-820726901300000); (-810236856300000); (-784871634100000);
  (-744002964300000); (-687113497400000); (-613892683800000); (-524176238100000); (-418050633700000); (-295762810900000);
  (-157801155000000); (-4807108053000); 162348442200000; 342621817300000; 534740136900000; 737300561700000;
  948741287000000; 1167352311000000; 1391246822000000; 1618501171000000; 1847111061000000; 2074959502000000;
  2299895883000000; 2519862913000000; 2732633427000000; 2936225012000000; 3128561750000000; 3307762742000000;
  3471996263000000; 3619609028000000; 3749086335000000; 3859099001000000; 3948510438000000; 4016397893000000;
  4062053561000000; 4085000232000000; 4085000232000000; 4062053561000000; 4016397893000000; 3948510438000000;
  3859099001000000; 3749086335000000; 3619609028000000; 3471996263000000; 3307762742000000; 3128561750000000;
  2936225012000000; 2732633427000000; 2519862913000000; 2299895883000000; 2074959502000000; 1847111061000000;
  1618501171000000; 1391246822000000; 1167352311000000; 948741287000000; 737300561700000; 534740136900000;
  342621817300000; 162348442200000; (-4807108053000); (-157801155000000); (-295762810900000); (-418050633700000);
  (-524176238100000); (-613892683800000); (-687113497400000); (-744002964300000); (-784871634100000); (-810236856300000);
  (-820726901300000); (-817183405200000); (-800557620800000); (-771940778900000); (-732478173400000); (-683460990000000);
  (-626185862300000); (-562029844100000); (-492368917900000); (-418635644000000); (-342148239700000); (-264318310700000);
  (-186371675200000); (-109593465500000); (-35077784560000); 36070705390000; 102941982900000; 164664385400000;
  220556906400000; 269993557600000; 312552950300000; 347864022500000; 375756318700000; 396112771700000;
  409017549800000; 414585275600000; 413125474000000; 404962524800000; 390590564300000; 370490085300000;
  345301209000000; 315631157700000; 282206106900000; 245723826800000; 206882995600000; 166565354400000;
  125196995200000; 83869672380000; 43011215170000; 3207824193000; (-34742080610000); (-70385047000000);
  (-103288702700000); (-133087707200000); (-159329269100000); (-181782164100000); (-200227880900000); (-214630132500000);
  (-224888464400000); (-231053261100000); (-233131833400000); (-231319200200000); (-225778622600000); (-216823117800000);
  (-204686541100000); (-189745926800000); (-172295502900000); (-152760313400000); (-131468323500000); (-108895520700000);
  (-85383473200000); (-61391340570000); (-37240647360000); (-13357294670000); 9991019033000; 32430229480000;
  53726416080000; 73582498590000; 91823691040000; 108225399200000; 122694892300000; 135090644500000;
  145402399400000; 153552962000000; 159616954600000; 163576775200000; 165562669300000; 165614276200000;
  163914193400000; 160538463400000; 155708100600000; 149541371500000; 142282107800000; 134058238500000;
  125121744300000; 115604209700000; 105746265000000; 95660774970000; 85570523520000; 75560598630000;
  65852463010000; 54921896660000; 155161134900000; 2171816595000].
Definition decim_gain : Z := 104110636377036100.
Definition decim_unit : Z := 100000000000000000.

(* freq_estimator.h:25-45: the profile *)
Inductive fe_profile := FeResponsive | FeGradual.
(* freq_estimator.h:36-53: FreqEstimatorConfig *)
Record fe_config (A : arith) := mkFeConfig { c_P : D A; c_I : D A; c_f1 : Z; c_f2 : Z }.
Arguments mkFeConfig {A}. Arguments c_P {A}. Arguments c_I {A}. Arguments c_f1 {A}. Arguments c_f2 {A}.
(* freq_estimator.cpp:19-39: make_config.  1e-6, 1e-10 and 5e-9 are written as
   quotients. *)
Definition make_config (A : arith) (p : fe_profile) : fe_config A :=
  match p with
  | FeResponsive => mkFeConfig (ddiv A (dZ A 1) (dZ A 1000000)) (ddiv A (dZ A 1) (dZ A 10000000000)) decim_max 0
  | FeGradual => mkFeConfig (ddiv A (dZ A 1) (dZ A 1000000)) (ddiv A (dZ A 5) (dZ A 1000000000)) decim_max decim_max
  end.
Definition table (A : arith) : list (D A) := map (fun z => ddiv A (dZ A z) (dZ A decim_unit)) decim_h.
Definition gain (A : arith) : D A := ddiv A (dZ A decim_gain) (dZ A decim_unit).

(* size_t addition *)
Definition sz (x : Z) : Z := x mod 2 ^ 64.

(* l[i] = v; outside of the array undefined *)
Definition store {X} (l : list X) (i : Z) (v : X) : res (list X) :=
  if (0 <=? i) && (i <? Z.of_nat (length l)) then Ok (firstn (Z.to_nat i) l ++ v :: skipn (S (Z.to_nat i)) l) else UB.
(* l[i] *)
Definition load {X} (l : list X) (i : Z) : res X :=
  if i <? 0 then UB else match nth_error l (Z.to_nat i) with Some x => Ok x | None => UB end.

(* freq_estimator.cpp:48-60: dot_prod; [n] terms left *)
Fixpoint dot (A : arith) (coeff samples : list (D A)) (i j : Z) (n : nat) (accum : D A) : res (D A) :=
  match n with
  | O => Ok accum
  | S n =>
      c <- load coeff j ;;
      s <- load samples i ;;
      dot A coeff samples (Z.land (sz (i - 1)) decim_mask) (sz (j + 1)) n (dadd A accum (dmul A c s))
  end.

(* freq_estimator.h:82-94: the fields *)
Record estimator (A : arith) := mkFe {
  e_cfg : fe_config A; e_target : D A;
  e_b1 : list (D A); e_i1 : Z; e_b2 : list (D A); e_i2 : Z;
  e_count : Z; e_accum : D A; e_coeff : D A
}.
Arguments mkFe {A}. Arguments e_cfg {A}. Arguments e_target {A}. Arguments e_b1 {A}. Arguments e_i1 {A}.
Arguments e_b2 {A}. Arguments e_i2 {A}. Arguments e_count {A}. Arguments e_accum {A}. Arguments e_coeff {A}.

(* freq_estimator.cpp:64-98: the constructor *)
Definition fe_new (A : arith) (p : fe_profile) (target : Z) : res (estimator A) :=
  let c := make_config A p in
  if (c_f1 c <? 1) || (decim_max <? c_f1 c) then Panic
  else if decim_max <? c_f2 c then Panic
  else Ok (mkFe c (dZ A target) (repeat (dZ A target) decim_len) 0 (repeat (dZ A target) decim_len) 0 0 (dZ A 0) (dZ A 1)).

(* freq_estimator.cpp:112-147: run_decimators_; the result is the filtered value, if there is one *)
Definition run_decimators (A : arith) (e : estimator A) (current : Z) : res (option (D A) * estimator A) :=
  let count := sz (e_count e + 1) in
  b1 <- store (e_b1 e) (e_i1 e) (dZ A current) ;;
  if count mod c_f1 (e_cfg e) =? 0 then
    d <- dot A (table A) b1 (e_i1 e) 0 decim_len (dZ A 0) ;;
    b2 <- store (e_b2 e) (e_i2 e) (ddiv A d (gain A)) ;;
    if c_f2 (e_cfg e) =? 0 then
      v <- load b2 (e_i2 e) ;;
      Ok (Some v, mkFe (e_cfg e) (e_target e) b1 (e_i1 e) b2 (e_i2 e) count (e_accum e) (e_coeff e))
    else if count mod (c_f1 (e_cfg e) * c_f2 (e_cfg e)) =? 0 then
      d2 <- dot A (table A) b2 (e_i2 e) 0 decim_len (dZ A 0) ;;
      Ok (Some (ddiv A d2 (gain A)), mkFe (e_cfg e) (e_target e) b1 (e_i1 e) b2 (e_i2 e) 0 (e_accum e) (e_coeff e))
    else
      Ok (None, mkFe (e_cfg e) (e_target e) b1 (Z.land (sz (e_i1 e + 1)) decim_mask) b2 (Z.land (sz (e_i2 e + 1)) decim_mask)
                     count (e_accum e) (e_coeff e))
  else
    Ok (None, mkFe (e_cfg e) (e_target e) b1 (Z.land (sz (e_i1 e + 1)) decim_mask) (e_b2 e) (e_i2 e) count (e_accum e) (e_coeff e)).

(* freq_estimator.cpp:149-154: run_controller_, 104-110: update *)
Definition fe_update (A : arith) (e : estimator A) (current : Z) : res (estimator A) :=
  r <- run_decimators A e current ;;
  match r with
  | (None, e) => Ok e
  | (Some filtered, e) =>
      let error := dsub A filtered (e_target e) in
      let accum := dadd A (e_accum e) error in
      let coeff := dadd A (dadd A (dZ A 1) (dmul A (c_P (e_cfg e)) error)) (dmul A (c_I (e_cfg e)) accum) in
      Ok (mkFe (e_cfg e) (e_target e) (e_b1 e) (e_i1 e) (e_b2 e) (e_i2 e) (e_count e) accum coeff)
  end.

(* A sequence of updates, the first one first *)
Fixpoint fe_run (A : arith) (e : estimator A) (xs : list Z) : res (estimator A) :=
  match xs with [] => Ok e | x :: xs => e <- fe_update A e x ;; fe_run A e xs end.
