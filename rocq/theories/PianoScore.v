(* The score of the piano example, examples/PlayPiano/prelude846.c:5-160, byte for byte,
   and the events it consists of. *)

From Coq Require Import ZArith List Bool Lia.
From Verif Require Import Machine PianoSpec.
Import ListNotations.
Local Open Scope Z_scope.

Definition prelude_bytes : list Z :=
  [144; 60; 90; 0; 250; 145; 64; 90; 0; 250; 146; 67; 90; 0; 250; 147; 72; 90; 0; 250; 148; 76; 90; 0;
   34; 130; 0; 216; 146; 67; 90; 0; 34; 131; 0; 216; 147; 72; 90; 0; 33; 132; 0; 216; 148; 76; 90; 0;
   34; 130; 0; 216; 144; 60; 90; 129; 0; 34; 131; 0; 216; 145; 64; 90; 0; 34; 132; 0; 216; 146; 67; 90;
   0; 250; 147; 72; 90; 0; 250; 148; 76; 90; 0; 34; 130; 0; 216; 146; 67; 90; 0; 34; 131; 0; 216; 147;
   72; 90; 0; 34; 132; 0; 216; 148; 76; 90; 0; 34; 130; 0; 216; 144; 60; 90; 129; 0; 35; 131; 0; 215;
   145; 62; 90; 0; 35; 132; 0; 215; 146; 69; 90; 0; 250; 147; 74; 90; 0; 250; 148; 77; 90; 0; 35; 130;
   0; 215; 146; 69; 90; 0; 35; 131; 0; 215; 147; 74; 90; 0; 35; 132; 0; 215; 148; 77; 90; 0; 35; 130;
   0; 215; 144; 60; 90; 129; 0; 35; 131; 0; 215; 145; 62; 90; 0; 35; 132; 0; 215; 146; 69; 90; 0; 250;
   147; 74; 90; 0; 250; 148; 77; 90; 0; 35; 130; 0; 215; 146; 69; 90; 0; 35; 131; 0; 215; 147; 74; 90;
   0; 35; 132; 0; 215; 148; 77; 90; 0; 35; 130; 0; 215; 144; 59; 90; 129; 0; 34; 131; 0; 216; 145; 62;
   90; 0; 34; 132; 0; 216; 146; 67; 90; 0; 250; 147; 74; 90; 0; 250; 148; 77; 90; 0; 34; 130; 0; 216;
   146; 67; 90; 0; 34; 131; 0; 216; 147; 74; 90; 0; 34; 132; 0; 216; 148; 77; 90; 0; 34; 130; 0; 216;
   144; 59; 90; 129; 0; 34; 131; 0; 216; 145; 62; 90; 0; 34; 132; 0; 216; 146; 67; 90; 0; 250; 147; 74;
   90; 0; 250; 148; 77; 90; 0; 34; 130; 0; 216; 146; 67; 90; 0; 34; 131; 0; 216; 147; 74; 90; 0; 34;
   132; 0; 216; 148; 77; 90; 0; 34; 130; 0; 216; 144; 60; 90; 129; 0; 34; 131; 0; 216; 145; 64; 90; 0;
   34; 132; 0; 216; 146; 67; 90; 0; 250; 147; 72; 90; 0; 250; 148; 76; 90; 0; 34; 130; 0; 216; 146; 67;
   90; 0; 34; 131; 0; 216; 147; 72; 90; 0; 34; 132; 0; 216; 148; 76; 90; 0; 34; 130; 0; 216; 144; 60;
   90; 129; 0; 34; 131; 0; 216; 145; 64; 90; 0; 34; 132; 0; 216; 146; 67; 90; 0; 250; 147; 72; 90; 0;
   250; 148; 76; 90; 0; 34; 130; 0; 216; 146; 67; 90; 0; 34; 131; 0; 216; 147; 72; 90; 0; 34; 132; 0;
   216; 148; 76; 90; 0; 34; 130; 0; 216; 144; 60; 90; 129; 0; 35; 131; 0; 215; 145; 64; 90; 0; 35; 132;
   0; 215; 146; 69; 90; 0; 250; 147; 76; 90; 0; 250; 148; 81; 90; 0; 35; 130; 0; 215; 146; 69; 90; 0;
   35; 131; 0; 215; 147; 76; 90; 0; 35; 132; 0; 215; 148; 81; 90; 0; 35; 130; 0; 215; 144; 60; 90; 129;
   0; 35; 131; 0; 215; 145; 64; 90; 0; 35; 132; 0; 215; 146; 69; 90; 0; 250; 147; 76; 90; 0; 250; 148;
   81; 90; 0; 35; 130; 0; 215; 146; 69; 90; 0; 35; 131; 0; 215; 147; 76; 90; 0; 35; 132; 0; 215; 148;
   81; 90; 0; 35; 130; 0; 215; 144; 60; 90; 129; 0; 35; 131; 0; 215; 145; 62; 90; 0; 35; 132; 0; 215;
   146; 66; 90; 0; 250; 147; 69; 90; 0; 250; 148; 74; 90; 0; 35; 130; 0; 215; 146; 66; 90; 0; 35; 131;
   0; 215; 147; 69; 90; 0; 35; 132; 0; 215; 148; 74; 90; 0; 35; 130; 0; 215; 144; 60; 90; 129; 0; 35;
   131; 0; 215; 145; 62; 90; 0; 35; 132; 0; 215; 146; 66; 90; 0; 250; 147; 69; 90; 0; 250; 148; 74; 90;
   0; 35; 130; 0; 215; 146; 66; 90; 0; 35; 131; 0; 215; 147; 69; 90; 0; 35; 132; 0; 215; 148; 74; 90;
   0; 35; 130; 0; 215; 144; 59; 90; 129; 0; 35; 131; 0; 215; 145; 62; 90; 0; 35; 132; 0; 215; 146; 67;
   90; 0; 250; 147; 74; 90; 0; 250; 148; 79; 90; 0; 35; 130; 0; 215; 146; 67; 90; 0; 35; 131; 0; 215;
   147; 74; 90; 0; 35; 132; 0; 215; 148; 79; 90; 0; 35; 130; 0; 215; 144; 59; 90; 129; 0; 35; 131; 0;
   215; 145; 62; 90; 0; 35; 132; 0; 215; 146; 67; 90; 0; 250; 147; 74; 90; 0; 250; 148; 79; 90; 0; 35;
   130; 0; 215; 146; 67; 90; 0; 35; 131; 0; 215; 147; 74; 90; 0; 35; 132; 0; 215; 148; 79; 90; 0; 35;
   130; 0; 215; 144; 59; 90; 129; 0; 35; 131; 0; 215; 145; 60; 90; 0; 35; 132; 0; 215; 146; 64; 90; 0;
   250; 147; 67; 90; 0; 250; 148; 72; 90; 0; 35; 130; 0; 215; 146; 64; 90; 0; 35; 131; 0; 215; 147; 67;
   90; 0; 35; 132; 0; 215; 148; 72; 90; 0; 35; 130; 0; 215; 144; 59; 90; 129; 0; 35; 131; 0; 215; 145;
   60; 90; 0; 35; 132; 0; 215; 146; 64; 90; 0; 250; 147; 67; 90; 0; 250; 148; 72; 90; 0; 35; 130; 0;
   215; 146; 64; 90; 0; 35; 131; 0; 215; 147; 67; 90; 0; 35; 132; 0; 215; 148; 72; 90; 0; 35; 130; 0;
   215; 144; 57; 90; 129; 0; 34; 131; 0; 216; 145; 60; 90; 0; 34; 132; 0; 216; 146; 64; 90; 0; 250; 147;
   67; 90; 0; 250; 148; 72; 90; 0; 34; 130; 0; 216; 146; 64; 90; 0; 34; 131; 0; 216; 147; 67; 90; 0;
   34; 132; 0; 216; 148; 72; 90; 0; 34; 130; 0; 216; 144; 57; 90; 129; 0; 34; 131; 0; 216; 145; 60; 90;
   0; 34; 132; 0; 216; 146; 64; 90; 0; 250; 147; 67; 90; 0; 250; 148; 72; 90; 0; 34; 130; 0; 216; 146;
   64; 90; 0; 34; 131; 0; 216; 147; 67; 90; 0; 34; 132; 0; 216; 148; 72; 90; 0; 34; 130; 0; 216; 144;
   50; 90; 129; 0; 34; 131; 0; 216; 145; 57; 90; 0; 34; 132; 0; 216; 146; 62; 90; 0; 250; 147; 66; 90;
   0; 250; 148; 72; 90; 0; 34; 130; 0; 216; 146; 62; 90; 0; 34; 131; 0; 216; 147; 66; 90; 0; 34; 132;
   0; 216; 148; 72; 90; 0; 34; 130; 0; 216; 144; 50; 90; 129; 0; 34; 131; 0; 216; 145; 57; 90; 0; 34;
   132; 0; 216; 146; 62; 90; 0; 250; 147; 66; 90; 0; 250; 148; 72; 90; 0; 34; 130; 0; 216; 146; 62; 90;
   0; 34; 131; 0; 216; 147; 66; 90; 0; 34; 132; 0; 216; 148; 72; 90; 0; 34; 130; 0; 216; 144; 55; 90;
   129; 0; 34; 131; 0; 216; 145; 59; 90; 0; 34; 132; 0; 216; 146; 62; 90; 0; 250; 147; 67; 90; 0; 250;
   148; 71; 90; 0; 34; 130; 0; 216; 146; 62; 90; 0; 34; 131; 0; 216; 147; 67; 90; 0; 34; 132; 0; 216;
   148; 71; 90; 0; 34; 130; 0; 216; 144; 55; 90; 129; 0; 34; 131; 0; 216; 145; 59; 90; 0; 34; 132; 0;
   216; 146; 62; 90; 0; 250; 147; 67; 90; 0; 250; 148; 71; 90; 0; 34; 130; 0; 216; 146; 62; 90; 0; 34;
   131; 0; 216; 147; 67; 90; 0; 34; 132; 0; 216; 148; 71; 90; 0; 34; 130; 0; 216; 144; 55; 90; 129; 0;
   34; 131; 0; 216; 145; 58; 90; 0; 34; 132; 0; 216; 146; 64; 90; 0; 250; 147; 67; 90; 0; 250; 148; 73;
   90; 0; 34; 130; 0; 216; 146; 64; 90; 0; 34; 131; 0; 216; 147; 67; 90; 0; 34; 132; 0; 216; 148; 73;
   90; 0; 34; 130; 0; 216; 144; 55; 90; 129; 0; 34; 131; 0; 216; 145; 58; 90; 0; 34; 132; 0; 216; 146;
   64; 90; 0; 250; 147; 67; 90; 0; 250; 148; 73; 90; 0; 34; 130; 0; 216; 146; 64; 90; 0; 34; 131; 0;
   216; 147; 67; 90; 0; 34; 132; 0; 216; 148; 73; 90; 0; 34; 130; 0; 216; 144; 53; 90; 129; 0; 34; 131;
   0; 216; 145; 57; 90; 0; 34; 132; 0; 216; 146; 62; 90; 0; 250; 147; 69; 90; 0; 250; 148; 74; 90; 0;
   34; 130; 0; 216; 146; 62; 90; 0; 34; 131; 0; 216; 147; 69; 90; 0; 34; 132; 0; 216; 148; 74; 90; 0;
   34; 130; 0; 216; 144; 53; 90; 129; 0; 34; 131; 0; 216; 145; 57; 90; 0; 34; 132; 0; 216; 146; 62; 90;
   0; 250; 147; 69; 90; 0; 250; 148; 74; 90; 0; 34; 130; 0; 216; 146; 62; 90; 0; 34; 131; 0; 216; 147;
   69; 90; 0; 34; 132; 0; 216; 148; 74; 90; 0; 34; 130; 0; 216; 144; 53; 90; 129; 0; 34; 131; 0; 216;
   145; 56; 90; 0; 34; 132; 0; 216; 146; 62; 90; 0; 250; 147; 65; 90; 0; 250; 148; 71; 90; 0; 34; 130;
   0; 216; 146; 62; 90; 0; 34; 131; 0; 216; 147; 65; 90; 0; 34; 132; 0; 216; 148; 71; 90; 0; 34; 130;
   0; 216; 144; 53; 90; 129; 0; 34; 131; 0; 216; 145; 56; 90; 0; 34; 132; 0; 216; 146; 62; 90; 0; 250;
   147; 65; 90; 0; 250; 148; 71; 90; 0; 34; 130; 0; 216; 146; 62; 90; 0; 34; 131; 0; 216; 147; 65; 90;
   0; 34; 132; 0; 216; 148; 71; 90; 0; 34; 130; 0; 216; 144; 52; 90; 129; 0; 34; 131; 0; 216; 145; 55;
   90; 0; 34; 132; 0; 216; 146; 60; 90; 0; 250; 147; 67; 90; 0; 250; 148; 72; 90; 0; 34; 130; 0; 216;
   146; 60; 90; 0; 34; 131; 0; 216; 147; 67; 90; 0; 34; 132; 0; 216; 148; 72; 90; 0; 34; 130; 0; 216;
   144; 52; 90; 129; 0; 34; 131; 0; 216; 145; 55; 90; 0; 34; 132; 0; 216; 146; 60; 90; 0; 250; 147; 67;
   90; 0; 250; 148; 72; 90; 0; 34; 130; 0; 216; 146; 60; 90; 0; 34; 131; 0; 216; 147; 67; 90; 0; 34;
   132; 0; 216; 148; 72; 90; 0; 34; 130; 0; 216; 144; 52; 90; 129; 0; 34; 131; 0; 216; 145; 53; 90; 0;
   34; 132; 0; 216; 146; 57; 90; 0; 250; 147; 60; 90; 0; 250; 148; 65; 90; 0; 34; 130; 0; 216; 146; 57;
   90; 0; 34; 131; 0; 216; 147; 60; 90; 0; 34; 132; 0; 216; 148; 65; 90; 0; 34; 130; 0; 216; 144; 52;
   90; 129; 0; 34; 131; 0; 216; 145; 53; 90; 0; 34; 132; 0; 216; 146; 57; 90; 0; 250; 147; 60; 90; 0;
   250; 148; 65; 90; 0; 34; 130; 0; 216; 146; 57; 90; 0; 34; 131; 0; 216; 147; 60; 90; 0; 34; 132; 0;
   216; 148; 65; 90; 0; 34; 130; 0; 216; 144; 50; 90; 129; 0; 35; 131; 0; 215; 145; 53; 90; 0; 35; 132;
   0; 215; 146; 57; 90; 0; 250; 147; 60; 90; 0; 250; 148; 65; 90; 0; 35; 130; 0; 215; 146; 57; 90; 0;
   35; 131; 0; 215; 147; 60; 90; 0; 35; 132; 0; 215; 148; 65; 90; 0; 35; 130; 0; 215; 144; 50; 90; 129;
   0; 35; 131; 0; 215; 145; 53; 90; 0; 35; 132; 0; 215; 146; 57; 90; 0; 250; 147; 60; 90; 0; 250; 148;
   65; 90; 0; 35; 130; 0; 215; 146; 57; 90; 0; 35; 131; 0; 215; 147; 60; 90; 0; 35; 132; 0; 215; 148;
   65; 90; 0; 35; 130; 0; 215; 144; 43; 90; 129; 0; 35; 131; 0; 215; 145; 50; 90; 0; 35; 132; 0; 215;
   146; 55; 90; 0; 250; 147; 59; 90; 0; 250; 148; 65; 90; 0; 35; 130; 0; 215; 146; 55; 90; 0; 35; 131;
   0; 215; 147; 59; 90; 0; 35; 132; 0; 215; 148; 65; 90; 0; 35; 130; 0; 215; 144; 43; 90; 129; 0; 35;
   131; 0; 215; 145; 50; 90; 0; 35; 132; 0; 215; 146; 55; 90; 0; 250; 147; 59; 90; 0; 250; 148; 65; 90;
   0; 35; 130; 0; 215; 146; 55; 90; 0; 35; 131; 0; 215; 147; 59; 90; 0; 35; 132; 0; 215; 148; 65; 90;
   0; 35; 130; 0; 215; 144; 48; 90; 129; 0; 35; 131; 0; 215; 145; 52; 90; 0; 35; 132; 0; 215; 146; 55;
   90; 0; 250; 147; 60; 90; 0; 250; 148; 64; 90; 0; 35; 130; 0; 215; 146; 55; 90; 0; 35; 131; 0; 215;
   147; 60; 90; 0; 35; 132; 0; 215; 148; 64; 90; 0; 35; 130; 0; 215; 144; 48; 90; 129; 0; 35; 131; 0;
   215; 145; 52; 90; 0; 35; 132; 0; 215; 146; 55; 90; 0; 250; 147; 60; 90; 0; 250; 148; 64; 90; 0; 35;
   130; 0; 215; 146; 55; 90; 0; 35; 131; 0; 215; 147; 60; 90; 0; 35; 132; 0; 215; 148; 64; 90; 0; 35;
   130; 0; 215; 144; 48; 90; 129; 0; 35; 131; 0; 215; 145; 55; 90; 0; 35; 132; 0; 215; 146; 58; 90; 0;
   250; 147; 60; 90; 0; 250; 148; 64; 90; 0; 35; 130; 0; 215; 146; 58; 90; 0; 35; 131; 0; 215; 147; 60;
   90; 0; 35; 132; 0; 215; 148; 64; 90; 0; 35; 130; 0; 215; 144; 48; 90; 129; 0; 35; 131; 0; 215; 145;
   55; 90; 0; 35; 132; 0; 215; 146; 58; 90; 0; 250; 147; 60; 90; 0; 250; 148; 64; 90; 0; 35; 130; 0;
   215; 146; 58; 90; 0; 35; 131; 0; 215; 147; 60; 90; 0; 35; 132; 0; 215; 148; 64; 90; 0; 35; 130; 0;
   215; 144; 41; 90; 129; 0; 35; 131; 0; 215; 145; 53; 90; 0; 35; 132; 0; 215; 146; 57; 90; 0; 250; 147;
   60; 90; 0; 250; 148; 64; 90; 0; 35; 130; 0; 215; 146; 57; 90; 0; 35; 131; 0; 215; 147; 60; 90; 0;
   35; 132; 0; 215; 148; 64; 90; 0; 35; 130; 0; 215; 144; 41; 90; 129; 0; 35; 131; 0; 215; 145; 53; 90;
   0; 35; 132; 0; 215; 146; 57; 90; 0; 250; 147; 60; 90; 0; 250; 148; 64; 90; 0; 35; 130; 0; 215; 146;
   57; 90; 0; 35; 131; 0; 215; 147; 60; 90; 0; 35; 132; 0; 215; 148; 64; 90; 0; 35; 130; 0; 215; 144;
   42; 90; 129; 0; 35; 131; 0; 215; 145; 48; 90; 0; 35; 132; 0; 215; 146; 57; 90; 0; 250; 147; 60; 90;
   0; 250; 148; 63; 90; 0; 35; 130; 0; 215; 146; 57; 90; 0; 35; 131; 0; 215; 147; 60; 90; 0; 35; 132;
   0; 215; 148; 63; 90; 0; 35; 130; 0; 215; 144; 42; 90; 129; 0; 35; 131; 0; 215; 145; 48; 90; 0; 35;
   132; 0; 215; 146; 57; 90; 0; 250; 147; 60; 90; 0; 250; 148; 63; 90; 0; 35; 130; 0; 215; 146; 57; 90;
   0; 35; 131; 0; 215; 147; 60; 90; 0; 35; 132; 0; 215; 148; 63; 90; 0; 35; 130; 0; 215; 144; 44; 90;
   129; 0; 35; 131; 0; 215; 145; 53; 90; 0; 35; 132; 0; 215; 146; 59; 90; 0; 250; 147; 60; 90; 0; 250;
   148; 62; 90; 0; 35; 130; 0; 215; 146; 59; 90; 0; 35; 131; 0; 215; 147; 60; 90; 0; 35; 132; 0; 215;
   148; 62; 90; 0; 35; 130; 0; 215; 144; 44; 90; 129; 0; 35; 131; 0; 215; 145; 53; 90; 0; 35; 132; 0;
   215; 146; 59; 90; 0; 250; 147; 60; 90; 0; 250; 148; 62; 90; 0; 35; 130; 0; 215; 146; 59; 90; 0; 35;
   131; 0; 215; 147; 60; 90; 0; 35; 132; 0; 215; 148; 62; 90; 0; 35; 130; 0; 215; 144; 43; 90; 129; 0;
   35; 131; 0; 215; 145; 53; 90; 0; 35; 132; 0; 215; 146; 55; 90; 0; 250; 147; 59; 90; 0; 250; 148; 62;
   90; 0; 35; 130; 0; 215; 146; 55; 90; 0; 35; 131; 0; 215; 147; 59; 90; 0; 35; 132; 0; 215; 148; 62;
   90; 0; 35; 130; 0; 215; 144; 43; 90; 129; 0; 35; 131; 0; 215; 145; 53; 90; 0; 35; 132; 0; 215; 146;
   55; 90; 0; 250; 147; 59; 90; 0; 250; 148; 62; 90; 0; 35; 130; 0; 215; 146; 55; 90; 0; 35; 131; 0;
   215; 147; 59; 90; 0; 35; 132; 0; 215; 148; 62; 90; 0; 35; 130; 0; 215; 144; 43; 90; 129; 0; 35; 131;
   0; 215; 145; 52; 90; 0; 35; 132; 0; 215; 146; 55; 90; 0; 250; 147; 60; 90; 0; 250; 148; 64; 90; 0;
   35; 130; 0; 215; 146; 55; 90; 0; 35; 131; 0; 215; 147; 60; 90; 0; 35; 132; 0; 215; 148; 64; 90; 0;
   35; 130; 0; 215; 144; 43; 90; 129; 0; 35; 131; 0; 215; 145; 52; 90; 0; 35; 132; 0; 215; 146; 55; 90;
   0; 250; 147; 60; 90; 0; 250; 148; 64; 90; 0; 35; 130; 0; 215; 146; 55; 90; 0; 35; 131; 0; 215; 147;
   60; 90; 0; 35; 132; 0; 215; 148; 64; 90; 0; 35; 130; 0; 215; 144; 43; 90; 129; 0; 35; 131; 0; 215;
   145; 50; 90; 0; 35; 132; 0; 215; 146; 55; 90; 0; 250; 147; 60; 90; 0; 250; 148; 65; 90; 0; 35; 130;
   0; 215; 146; 55; 90; 0; 35; 131; 0; 215; 147; 60; 90; 0; 35; 132; 0; 215; 148; 65; 90; 0; 35; 130;
   0; 215; 144; 43; 90; 129; 0; 35; 131; 0; 215; 145; 50; 90; 0; 35; 132; 0; 215; 146; 55; 90; 0; 250;
   147; 60; 90; 0; 250; 148; 65; 90; 0; 35; 130; 0; 215; 146; 55; 90; 0; 35; 131; 0; 215; 147; 60; 90;
   0; 35; 132; 0; 215; 148; 65; 90; 0; 35; 130; 0; 215; 144; 43; 90; 129; 0; 35; 131; 0; 215; 145; 50;
   90; 0; 35; 132; 0; 215; 146; 55; 90; 0; 250; 147; 59; 90; 0; 250; 148; 65; 90; 0; 35; 130; 0; 215;
   146; 55; 90; 0; 35; 131; 0; 215; 147; 59; 90; 0; 35; 132; 0; 215; 148; 65; 90; 0; 35; 130; 0; 215;
   144; 43; 90; 129; 0; 35; 131; 0; 215; 145; 50; 90; 0; 35; 132; 0; 215; 146; 55; 90; 0; 250; 147; 59;
   90; 0; 250; 148; 65; 90; 0; 35; 130; 0; 215; 146; 55; 90; 0; 35; 131; 0; 215; 147; 59; 90; 0; 35;
   132; 0; 215; 148; 65; 90; 0; 35; 130; 0; 215; 144; 43; 90; 129; 0; 35; 131; 0; 215; 145; 51; 90; 0;
   35; 132; 0; 215; 146; 57; 90; 0; 250; 147; 60; 90; 0; 250; 148; 66; 90; 0; 35; 130; 0; 215; 146; 57;
   90; 0; 35; 131; 0; 215; 147; 60; 90; 0; 35; 132; 0; 215; 148; 66; 90; 0; 35; 130; 0; 215; 144; 43;
   90; 129; 0; 35; 131; 0; 215; 145; 51; 90; 0; 35; 132; 0; 215; 146; 57; 90; 0; 250; 147; 60; 90; 0;
   250; 148; 66; 90; 0; 35; 130; 0; 215; 146; 57; 90; 0; 35; 131; 0; 215; 147; 60; 90; 0; 35; 132; 0;
   215; 148; 66; 90; 0; 35; 130; 0; 215; 144; 43; 90; 129; 0; 35; 131; 0; 215; 145; 52; 90; 0; 35; 132;
   0; 215; 146; 55; 90; 0; 250; 147; 60; 90; 0; 250; 148; 67; 90; 0; 35; 130; 0; 215; 146; 55; 90; 0;
   35; 131; 0; 215; 147; 60; 90; 0; 35; 132; 0; 215; 148; 67; 90; 0; 35; 130; 0; 215; 144; 43; 90; 129;
   0; 35; 131; 0; 215; 145; 52; 90; 0; 35; 132; 0; 215; 146; 55; 90; 0; 250; 147; 60; 90; 0; 250; 148;
   67; 90; 0; 35; 130; 0; 215; 146; 55; 90; 0; 35; 131; 0; 215; 147; 60; 90; 0; 35; 132; 0; 215; 148;
   67; 90; 0; 35; 130; 0; 215; 144; 43; 90; 129; 0; 35; 131; 0; 215; 145; 50; 90; 0; 35; 132; 0; 215;
   146; 55; 90; 0; 250; 147; 60; 90; 0; 250; 148; 65; 90; 0; 35; 130; 0; 215; 146; 55; 90; 0; 35; 131;
   0; 215; 147; 60; 90; 0; 35; 132; 0; 215; 148; 65; 90; 0; 35; 130; 0; 215; 144; 43; 90; 129; 0; 35;
   131; 0; 215; 145; 50; 90; 0; 35; 132; 0; 215; 146; 55; 90; 0; 250; 147; 60; 90; 0; 250; 148; 65; 90;
   0; 35; 130; 0; 215; 146; 55; 90; 0; 35; 131; 0; 215; 147; 60; 90; 0; 35; 132; 0; 215; 148; 65; 90;
   0; 35; 130; 0; 215; 144; 43; 90; 129; 0; 35; 131; 0; 215; 145; 50; 90; 0; 35; 132; 0; 215; 146; 55;
   90; 0; 250; 147; 59; 90; 0; 250; 148; 65; 90; 0; 35; 130; 0; 215; 146; 55; 90; 0; 35; 131; 0; 215;
   147; 59; 90; 0; 35; 132; 0; 215; 148; 65; 90; 0; 35; 130; 0; 215; 144; 43; 90; 129; 0; 35; 131; 0;
   215; 145; 50; 90; 0; 35; 132; 0; 215; 146; 55; 90; 0; 250; 147; 59; 90; 0; 250; 148; 65; 90; 0; 35;
   130; 0; 215; 146; 55; 90; 0; 35; 131; 0; 215; 147; 59; 90; 0; 35; 132; 0; 215; 148; 65; 90; 0; 35;
   130; 0; 215; 144; 36; 90; 129; 0; 35; 131; 0; 215; 145; 48; 90; 0; 35; 132; 0; 215; 146; 55; 90; 0;
   250; 147; 58; 90; 0; 250; 148; 64; 90; 0; 35; 130; 0; 215; 146; 55; 90; 0; 35; 131; 0; 215; 147; 58;
   90; 0; 35; 132; 0; 215; 148; 64; 90; 0; 35; 130; 0; 215; 144; 36; 90; 129; 0; 35; 131; 0; 215; 145;
   48; 90; 0; 35; 132; 0; 215; 146; 55; 90; 0; 250; 147; 58; 90; 0; 250; 148; 64; 90; 0; 35; 130; 0;
   215; 146; 55; 90; 0; 35; 131; 0; 215; 147; 58; 90; 0; 35; 132; 0; 215; 148; 64; 90; 0; 35; 130; 0;
   215; 144; 36; 90; 129; 0; 34; 131; 0; 216; 145; 48; 90; 0; 34; 132; 0; 216; 146; 53; 90; 0; 250; 147;
   57; 90; 0; 250; 148; 60; 90; 0; 34; 130; 0; 216; 146; 65; 90; 0; 34; 131; 0; 201; 132; 0; 15; 147;
   60; 90; 0; 250; 148; 57; 90; 0; 34; 130; 0; 190; 131; 0; 26; 146; 60; 90; 0; 233; 132; 0; 17; 147;
   57; 90; 0; 250; 148; 53; 90; 0; 34; 130; 0; 199; 131; 0; 17; 146; 57; 90; 0; 217; 132; 0; 31; 147;
   53; 90; 0; 252; 148; 50; 90; 0; 34; 130; 0; 180; 131; 0; 36; 146; 53; 90; 0; 221; 132; 0; 29; 147;
   50; 90; 0; 250; 144; 36; 90; 129; 0; 34; 130; 0; 216; 145; 47; 90; 0; 34; 131; 0; 216; 146; 67; 90;
   0; 250; 147; 71; 90; 0; 250; 148; 74; 90; 0; 34; 130; 0; 216; 146; 77; 90; 0; 34; 131; 0; 190; 132;
   0; 26; 147; 74; 90; 0; 250; 148; 71; 90; 0; 34; 130; 0; 167; 131; 0; 49; 146; 74; 90; 0; 230; 132;
   0; 20; 147; 71; 90; 0; 250; 148; 67; 90; 0; 34; 130; 0; 180; 131; 0; 36; 146; 71; 90; 0; 250; 147;
   62; 90; 0; 34; 132; 0; 216; 148; 65; 90; 0; 34; 130; 0; 216; 146; 64; 90; 0; 34; 131; 0; 216; 147;
   62; 90; 0; 34; 132; 0; 162; 130; 0; 54; 144; 48; 90; 145; 36; 90; 146; 64; 90; 148; 67; 90; 149; 72;
   90; 1; 28; 131; 14; 130; 128; 129; 1; 28; 130; 132; 133; 240].

Definition prelude_events : list event :=
  [On 0 60 90; Wait 0 250; On 1 64 90; Wait 0 250; On 2 67 90; Wait 0 250; On 3 72 90; Wait 0 250; On 4 76 90; Wait 0 34; Off 2; Wait 0 216; On 2 67 90; Wait 0 34;
   Off 3; Wait 0 216; On 3 72 90; Wait 0 33; Off 4; Wait 0 216; On 4 76 90; Wait 0 34; Off 2; Wait 0 216; On 0 60 90; Off 1; Wait 0 34; Off 3;
   Wait 0 216; On 1 64 90; Wait 0 34; Off 4; Wait 0 216; On 2 67 90; Wait 0 250; On 3 72 90; Wait 0 250; On 4 76 90; Wait 0 34; Off 2; Wait 0 216; On 2 67 90;
   Wait 0 34; Off 3; Wait 0 216; On 3 72 90; Wait 0 34; Off 4; Wait 0 216; On 4 76 90; Wait 0 34; Off 2; Wait 0 216; On 0 60 90; Off 1; Wait 0 35;
   Off 3; Wait 0 215; On 1 62 90; Wait 0 35; Off 4; Wait 0 215; On 2 69 90; Wait 0 250; On 3 74 90; Wait 0 250; On 4 77 90; Wait 0 35; Off 2; Wait 0 215;
   On 2 69 90; Wait 0 35; Off 3; Wait 0 215; On 3 74 90; Wait 0 35; Off 4; Wait 0 215; On 4 77 90; Wait 0 35; Off 2; Wait 0 215; On 0 60 90; Off 1;
   Wait 0 35; Off 3; Wait 0 215; On 1 62 90; Wait 0 35; Off 4; Wait 0 215; On 2 69 90; Wait 0 250; On 3 74 90; Wait 0 250; On 4 77 90; Wait 0 35; Off 2;
   Wait 0 215; On 2 69 90; Wait 0 35; Off 3; Wait 0 215; On 3 74 90; Wait 0 35; Off 4; Wait 0 215; On 4 77 90; Wait 0 35; Off 2; Wait 0 215; On 0 59 90;
   Off 1; Wait 0 34; Off 3; Wait 0 216; On 1 62 90; Wait 0 34; Off 4; Wait 0 216; On 2 67 90; Wait 0 250; On 3 74 90; Wait 0 250; On 4 77 90; Wait 0 34;
   Off 2; Wait 0 216; On 2 67 90; Wait 0 34; Off 3; Wait 0 216; On 3 74 90; Wait 0 34; Off 4; Wait 0 216; On 4 77 90; Wait 0 34; Off 2; Wait 0 216;
   On 0 59 90; Off 1; Wait 0 34; Off 3; Wait 0 216; On 1 62 90; Wait 0 34; Off 4; Wait 0 216; On 2 67 90; Wait 0 250; On 3 74 90; Wait 0 250; On 4 77 90;
   Wait 0 34; Off 2; Wait 0 216; On 2 67 90; Wait 0 34; Off 3; Wait 0 216; On 3 74 90; Wait 0 34; Off 4; Wait 0 216; On 4 77 90; Wait 0 34; Off 2;
   Wait 0 216; On 0 60 90; Off 1; Wait 0 34; Off 3; Wait 0 216; On 1 64 90; Wait 0 34; Off 4; Wait 0 216; On 2 67 90; Wait 0 250; On 3 72 90; Wait 0 250;
   On 4 76 90; Wait 0 34; Off 2; Wait 0 216; On 2 67 90; Wait 0 34; Off 3; Wait 0 216; On 3 72 90; Wait 0 34; Off 4; Wait 0 216; On 4 76 90; Wait 0 34;
   Off 2; Wait 0 216; On 0 60 90; Off 1; Wait 0 34; Off 3; Wait 0 216; On 1 64 90; Wait 0 34; Off 4; Wait 0 216; On 2 67 90; Wait 0 250; On 3 72 90;
   Wait 0 250; On 4 76 90; Wait 0 34; Off 2; Wait 0 216; On 2 67 90; Wait 0 34; Off 3; Wait 0 216; On 3 72 90; Wait 0 34; Off 4; Wait 0 216; On 4 76 90;
   Wait 0 34; Off 2; Wait 0 216; On 0 60 90; Off 1; Wait 0 35; Off 3; Wait 0 215; On 1 64 90; Wait 0 35; Off 4; Wait 0 215; On 2 69 90; Wait 0 250;
   On 3 76 90; Wait 0 250; On 4 81 90; Wait 0 35; Off 2; Wait 0 215; On 2 69 90; Wait 0 35; Off 3; Wait 0 215; On 3 76 90; Wait 0 35; Off 4; Wait 0 215;
   On 4 81 90; Wait 0 35; Off 2; Wait 0 215; On 0 60 90; Off 1; Wait 0 35; Off 3; Wait 0 215; On 1 64 90; Wait 0 35; Off 4; Wait 0 215; On 2 69 90;
   Wait 0 250; On 3 76 90; Wait 0 250; On 4 81 90; Wait 0 35; Off 2; Wait 0 215; On 2 69 90; Wait 0 35; Off 3; Wait 0 215; On 3 76 90; Wait 0 35; Off 4;
   Wait 0 215; On 4 81 90; Wait 0 35; Off 2; Wait 0 215; On 0 60 90; Off 1; Wait 0 35; Off 3; Wait 0 215; On 1 62 90; Wait 0 35; Off 4; Wait 0 215;
   On 2 66 90; Wait 0 250; On 3 69 90; Wait 0 250; On 4 74 90; Wait 0 35; Off 2; Wait 0 215; On 2 66 90; Wait 0 35; Off 3; Wait 0 215; On 3 69 90; Wait 0 35;
   Off 4; Wait 0 215; On 4 74 90; Wait 0 35; Off 2; Wait 0 215; On 0 60 90; Off 1; Wait 0 35; Off 3; Wait 0 215; On 1 62 90; Wait 0 35; Off 4;
   Wait 0 215; On 2 66 90; Wait 0 250; On 3 69 90; Wait 0 250; On 4 74 90; Wait 0 35; Off 2; Wait 0 215; On 2 66 90; Wait 0 35; Off 3; Wait 0 215; On 3 69 90;
   Wait 0 35; Off 4; Wait 0 215; On 4 74 90; Wait 0 35; Off 2; Wait 0 215; On 0 59 90; Off 1; Wait 0 35; Off 3; Wait 0 215; On 1 62 90; Wait 0 35;
   Off 4; Wait 0 215; On 2 67 90; Wait 0 250; On 3 74 90; Wait 0 250; On 4 79 90; Wait 0 35; Off 2; Wait 0 215; On 2 67 90; Wait 0 35; Off 3; Wait 0 215;
   On 3 74 90; Wait 0 35; Off 4; Wait 0 215; On 4 79 90; Wait 0 35; Off 2; Wait 0 215; On 0 59 90; Off 1; Wait 0 35; Off 3; Wait 0 215; On 1 62 90;
   Wait 0 35; Off 4; Wait 0 215; On 2 67 90; Wait 0 250; On 3 74 90; Wait 0 250; On 4 79 90; Wait 0 35; Off 2; Wait 0 215; On 2 67 90; Wait 0 35; Off 3;
   Wait 0 215; On 3 74 90; Wait 0 35; Off 4; Wait 0 215; On 4 79 90; Wait 0 35; Off 2; Wait 0 215; On 0 59 90; Off 1; Wait 0 35; Off 3; Wait 0 215;
   On 1 60 90; Wait 0 35; Off 4; Wait 0 215; On 2 64 90; Wait 0 250; On 3 67 90; Wait 0 250; On 4 72 90; Wait 0 35; Off 2; Wait 0 215; On 2 64 90; Wait 0 35;
   Off 3; Wait 0 215; On 3 67 90; Wait 0 35; Off 4; Wait 0 215; On 4 72 90; Wait 0 35; Off 2; Wait 0 215; On 0 59 90; Off 1; Wait 0 35; Off 3;
   Wait 0 215; On 1 60 90; Wait 0 35; Off 4; Wait 0 215; On 2 64 90; Wait 0 250; On 3 67 90; Wait 0 250; On 4 72 90; Wait 0 35; Off 2; Wait 0 215; On 2 64 90;
   Wait 0 35; Off 3; Wait 0 215; On 3 67 90; Wait 0 35; Off 4; Wait 0 215; On 4 72 90; Wait 0 35; Off 2; Wait 0 215; On 0 57 90; Off 1; Wait 0 34;
   Off 3; Wait 0 216; On 1 60 90; Wait 0 34; Off 4; Wait 0 216; On 2 64 90; Wait 0 250; On 3 67 90; Wait 0 250; On 4 72 90; Wait 0 34; Off 2; Wait 0 216;
   On 2 64 90; Wait 0 34; Off 3; Wait 0 216; On 3 67 90; Wait 0 34; Off 4; Wait 0 216; On 4 72 90; Wait 0 34; Off 2; Wait 0 216; On 0 57 90; Off 1;
   Wait 0 34; Off 3; Wait 0 216; On 1 60 90; Wait 0 34; Off 4; Wait 0 216; On 2 64 90; Wait 0 250; On 3 67 90; Wait 0 250; On 4 72 90; Wait 0 34; Off 2;
   Wait 0 216; On 2 64 90; Wait 0 34; Off 3; Wait 0 216; On 3 67 90; Wait 0 34; Off 4; Wait 0 216; On 4 72 90; Wait 0 34; Off 2; Wait 0 216; On 0 50 90;
   Off 1; Wait 0 34; Off 3; Wait 0 216; On 1 57 90; Wait 0 34; Off 4; Wait 0 216; On 2 62 90; Wait 0 250; On 3 66 90; Wait 0 250; On 4 72 90; Wait 0 34;
   Off 2; Wait 0 216; On 2 62 90; Wait 0 34; Off 3; Wait 0 216; On 3 66 90; Wait 0 34; Off 4; Wait 0 216; On 4 72 90; Wait 0 34; Off 2; Wait 0 216;
   On 0 50 90; Off 1; Wait 0 34; Off 3; Wait 0 216; On 1 57 90; Wait 0 34; Off 4; Wait 0 216; On 2 62 90; Wait 0 250; On 3 66 90; Wait 0 250; On 4 72 90;
   Wait 0 34; Off 2; Wait 0 216; On 2 62 90; Wait 0 34; Off 3; Wait 0 216; On 3 66 90; Wait 0 34; Off 4; Wait 0 216; On 4 72 90; Wait 0 34; Off 2;
   Wait 0 216; On 0 55 90; Off 1; Wait 0 34; Off 3; Wait 0 216; On 1 59 90; Wait 0 34; Off 4; Wait 0 216; On 2 62 90; Wait 0 250; On 3 67 90; Wait 0 250;
   On 4 71 90; Wait 0 34; Off 2; Wait 0 216; On 2 62 90; Wait 0 34; Off 3; Wait 0 216; On 3 67 90; Wait 0 34; Off 4; Wait 0 216; On 4 71 90; Wait 0 34;
   Off 2; Wait 0 216; On 0 55 90; Off 1; Wait 0 34; Off 3; Wait 0 216; On 1 59 90; Wait 0 34; Off 4; Wait 0 216; On 2 62 90; Wait 0 250; On 3 67 90;
   Wait 0 250; On 4 71 90; Wait 0 34; Off 2; Wait 0 216; On 2 62 90; Wait 0 34; Off 3; Wait 0 216; On 3 67 90; Wait 0 34; Off 4; Wait 0 216; On 4 71 90;
   Wait 0 34; Off 2; Wait 0 216; On 0 55 90; Off 1; Wait 0 34; Off 3; Wait 0 216; On 1 58 90; Wait 0 34; Off 4; Wait 0 216; On 2 64 90; Wait 0 250;
   On 3 67 90; Wait 0 250; On 4 73 90; Wait 0 34; Off 2; Wait 0 216; On 2 64 90; Wait 0 34; Off 3; Wait 0 216; On 3 67 90; Wait 0 34; Off 4; Wait 0 216;
   On 4 73 90; Wait 0 34; Off 2; Wait 0 216; On 0 55 90; Off 1; Wait 0 34; Off 3; Wait 0 216; On 1 58 90; Wait 0 34; Off 4; Wait 0 216; On 2 64 90;
   Wait 0 250; On 3 67 90; Wait 0 250; On 4 73 90; Wait 0 34; Off 2; Wait 0 216; On 2 64 90; Wait 0 34; Off 3; Wait 0 216; On 3 67 90; Wait 0 34; Off 4;
   Wait 0 216; On 4 73 90; Wait 0 34; Off 2; Wait 0 216; On 0 53 90; Off 1; Wait 0 34; Off 3; Wait 0 216; On 1 57 90; Wait 0 34; Off 4; Wait 0 216;
   On 2 62 90; Wait 0 250; On 3 69 90; Wait 0 250; On 4 74 90; Wait 0 34; Off 2; Wait 0 216; On 2 62 90; Wait 0 34; Off 3; Wait 0 216; On 3 69 90; Wait 0 34;
   Off 4; Wait 0 216; On 4 74 90; Wait 0 34; Off 2; Wait 0 216; On 0 53 90; Off 1; Wait 0 34; Off 3; Wait 0 216; On 1 57 90; Wait 0 34; Off 4;
   Wait 0 216; On 2 62 90; Wait 0 250; On 3 69 90; Wait 0 250; On 4 74 90; Wait 0 34; Off 2; Wait 0 216; On 2 62 90; Wait 0 34; Off 3; Wait 0 216; On 3 69 90;
   Wait 0 34; Off 4; Wait 0 216; On 4 74 90; Wait 0 34; Off 2; Wait 0 216; On 0 53 90; Off 1; Wait 0 34; Off 3; Wait 0 216; On 1 56 90; Wait 0 34;
   Off 4; Wait 0 216; On 2 62 90; Wait 0 250; On 3 65 90; Wait 0 250; On 4 71 90; Wait 0 34; Off 2; Wait 0 216; On 2 62 90; Wait 0 34; Off 3; Wait 0 216;
   On 3 65 90; Wait 0 34; Off 4; Wait 0 216; On 4 71 90; Wait 0 34; Off 2; Wait 0 216; On 0 53 90; Off 1; Wait 0 34; Off 3; Wait 0 216; On 1 56 90;
   Wait 0 34; Off 4; Wait 0 216; On 2 62 90; Wait 0 250; On 3 65 90; Wait 0 250; On 4 71 90; Wait 0 34; Off 2; Wait 0 216; On 2 62 90; Wait 0 34; Off 3;
   Wait 0 216; On 3 65 90; Wait 0 34; Off 4; Wait 0 216; On 4 71 90; Wait 0 34; Off 2; Wait 0 216; On 0 52 90; Off 1; Wait 0 34; Off 3; Wait 0 216;
   On 1 55 90; Wait 0 34; Off 4; Wait 0 216; On 2 60 90; Wait 0 250; On 3 67 90; Wait 0 250; On 4 72 90; Wait 0 34; Off 2; Wait 0 216; On 2 60 90; Wait 0 34;
   Off 3; Wait 0 216; On 3 67 90; Wait 0 34; Off 4; Wait 0 216; On 4 72 90; Wait 0 34; Off 2; Wait 0 216; On 0 52 90; Off 1; Wait 0 34; Off 3;
   Wait 0 216; On 1 55 90; Wait 0 34; Off 4; Wait 0 216; On 2 60 90; Wait 0 250; On 3 67 90; Wait 0 250; On 4 72 90; Wait 0 34; Off 2; Wait 0 216; On 2 60 90;
   Wait 0 34; Off 3; Wait 0 216; On 3 67 90; Wait 0 34; Off 4; Wait 0 216; On 4 72 90; Wait 0 34; Off 2; Wait 0 216; On 0 52 90; Off 1; Wait 0 34;
   Off 3; Wait 0 216; On 1 53 90; Wait 0 34; Off 4; Wait 0 216; On 2 57 90; Wait 0 250; On 3 60 90; Wait 0 250; On 4 65 90; Wait 0 34; Off 2; Wait 0 216;
   On 2 57 90; Wait 0 34; Off 3; Wait 0 216; On 3 60 90; Wait 0 34; Off 4; Wait 0 216; On 4 65 90; Wait 0 34; Off 2; Wait 0 216; On 0 52 90; Off 1;
   Wait 0 34; Off 3; Wait 0 216; On 1 53 90; Wait 0 34; Off 4; Wait 0 216; On 2 57 90; Wait 0 250; On 3 60 90; Wait 0 250; On 4 65 90; Wait 0 34; Off 2;
   Wait 0 216; On 2 57 90; Wait 0 34; Off 3; Wait 0 216; On 3 60 90; Wait 0 34; Off 4; Wait 0 216; On 4 65 90; Wait 0 34; Off 2; Wait 0 216; On 0 50 90;
   Off 1; Wait 0 35; Off 3; Wait 0 215; On 1 53 90; Wait 0 35; Off 4; Wait 0 215; On 2 57 90; Wait 0 250; On 3 60 90; Wait 0 250; On 4 65 90; Wait 0 35;
   Off 2; Wait 0 215; On 2 57 90; Wait 0 35; Off 3; Wait 0 215; On 3 60 90; Wait 0 35; Off 4; Wait 0 215; On 4 65 90; Wait 0 35; Off 2; Wait 0 215;
   On 0 50 90; Off 1; Wait 0 35; Off 3; Wait 0 215; On 1 53 90; Wait 0 35; Off 4; Wait 0 215; On 2 57 90; Wait 0 250; On 3 60 90; Wait 0 250; On 4 65 90;
   Wait 0 35; Off 2; Wait 0 215; On 2 57 90; Wait 0 35; Off 3; Wait 0 215; On 3 60 90; Wait 0 35; Off 4; Wait 0 215; On 4 65 90; Wait 0 35; Off 2;
   Wait 0 215; On 0 43 90; Off 1; Wait 0 35; Off 3; Wait 0 215; On 1 50 90; Wait 0 35; Off 4; Wait 0 215; On 2 55 90; Wait 0 250; On 3 59 90; Wait 0 250;
   On 4 65 90; Wait 0 35; Off 2; Wait 0 215; On 2 55 90; Wait 0 35; Off 3; Wait 0 215; On 3 59 90; Wait 0 35; Off 4; Wait 0 215; On 4 65 90; Wait 0 35;
   Off 2; Wait 0 215; On 0 43 90; Off 1; Wait 0 35; Off 3; Wait 0 215; On 1 50 90; Wait 0 35; Off 4; Wait 0 215; On 2 55 90; Wait 0 250; On 3 59 90;
   Wait 0 250; On 4 65 90; Wait 0 35; Off 2; Wait 0 215; On 2 55 90; Wait 0 35; Off 3; Wait 0 215; On 3 59 90; Wait 0 35; Off 4; Wait 0 215; On 4 65 90;
   Wait 0 35; Off 2; Wait 0 215; On 0 48 90; Off 1; Wait 0 35; Off 3; Wait 0 215; On 1 52 90; Wait 0 35; Off 4; Wait 0 215; On 2 55 90; Wait 0 250;
   On 3 60 90; Wait 0 250; On 4 64 90; Wait 0 35; Off 2; Wait 0 215; On 2 55 90; Wait 0 35; Off 3; Wait 0 215; On 3 60 90; Wait 0 35; Off 4; Wait 0 215;
   On 4 64 90; Wait 0 35; Off 2; Wait 0 215; On 0 48 90; Off 1; Wait 0 35; Off 3; Wait 0 215; On 1 52 90; Wait 0 35; Off 4; Wait 0 215; On 2 55 90;
   Wait 0 250; On 3 60 90; Wait 0 250; On 4 64 90; Wait 0 35; Off 2; Wait 0 215; On 2 55 90; Wait 0 35; Off 3; Wait 0 215; On 3 60 90; Wait 0 35; Off 4;
   Wait 0 215; On 4 64 90; Wait 0 35; Off 2; Wait 0 215; On 0 48 90; Off 1; Wait 0 35; Off 3; Wait 0 215; On 1 55 90; Wait 0 35; Off 4; Wait 0 215;
   On 2 58 90; Wait 0 250; On 3 60 90; Wait 0 250; On 4 64 90; Wait 0 35; Off 2; Wait 0 215; On 2 58 90; Wait 0 35; Off 3; Wait 0 215; On 3 60 90; Wait 0 35;
   Off 4; Wait 0 215; On 4 64 90; Wait 0 35; Off 2; Wait 0 215; On 0 48 90; Off 1; Wait 0 35; Off 3; Wait 0 215; On 1 55 90; Wait 0 35; Off 4;
   Wait 0 215; On 2 58 90; Wait 0 250; On 3 60 90; Wait 0 250; On 4 64 90; Wait 0 35; Off 2; Wait 0 215; On 2 58 90; Wait 0 35; Off 3; Wait 0 215; On 3 60 90;
   Wait 0 35; Off 4; Wait 0 215; On 4 64 90; Wait 0 35; Off 2; Wait 0 215; On 0 41 90; Off 1; Wait 0 35; Off 3; Wait 0 215; On 1 53 90; Wait 0 35;
   Off 4; Wait 0 215; On 2 57 90; Wait 0 250; On 3 60 90; Wait 0 250; On 4 64 90; Wait 0 35; Off 2; Wait 0 215; On 2 57 90; Wait 0 35; Off 3; Wait 0 215;
   On 3 60 90; Wait 0 35; Off 4; Wait 0 215; On 4 64 90; Wait 0 35; Off 2; Wait 0 215; On 0 41 90; Off 1; Wait 0 35; Off 3; Wait 0 215; On 1 53 90;
   Wait 0 35; Off 4; Wait 0 215; On 2 57 90; Wait 0 250; On 3 60 90; Wait 0 250; On 4 64 90; Wait 0 35; Off 2; Wait 0 215; On 2 57 90; Wait 0 35; Off 3;
   Wait 0 215; On 3 60 90; Wait 0 35; Off 4; Wait 0 215; On 4 64 90; Wait 0 35; Off 2; Wait 0 215; On 0 42 90; Off 1; Wait 0 35; Off 3; Wait 0 215;
   On 1 48 90; Wait 0 35; Off 4; Wait 0 215; On 2 57 90; Wait 0 250; On 3 60 90; Wait 0 250; On 4 63 90; Wait 0 35; Off 2; Wait 0 215; On 2 57 90; Wait 0 35;
   Off 3; Wait 0 215; On 3 60 90; Wait 0 35; Off 4; Wait 0 215; On 4 63 90; Wait 0 35; Off 2; Wait 0 215; On 0 42 90; Off 1; Wait 0 35; Off 3;
   Wait 0 215; On 1 48 90; Wait 0 35; Off 4; Wait 0 215; On 2 57 90; Wait 0 250; On 3 60 90; Wait 0 250; On 4 63 90; Wait 0 35; Off 2; Wait 0 215; On 2 57 90;
   Wait 0 35; Off 3; Wait 0 215; On 3 60 90; Wait 0 35; Off 4; Wait 0 215; On 4 63 90; Wait 0 35; Off 2; Wait 0 215; On 0 44 90; Off 1; Wait 0 35;
   Off 3; Wait 0 215; On 1 53 90; Wait 0 35; Off 4; Wait 0 215; On 2 59 90; Wait 0 250; On 3 60 90; Wait 0 250; On 4 62 90; Wait 0 35; Off 2; Wait 0 215;
   On 2 59 90; Wait 0 35; Off 3; Wait 0 215; On 3 60 90; Wait 0 35; Off 4; Wait 0 215; On 4 62 90; Wait 0 35; Off 2; Wait 0 215; On 0 44 90; Off 1;
   Wait 0 35; Off 3; Wait 0 215; On 1 53 90; Wait 0 35; Off 4; Wait 0 215; On 2 59 90; Wait 0 250; On 3 60 90; Wait 0 250; On 4 62 90; Wait 0 35; Off 2;
   Wait 0 215; On 2 59 90; Wait 0 35; Off 3; Wait 0 215; On 3 60 90; Wait 0 35; Off 4; Wait 0 215; On 4 62 90; Wait 0 35; Off 2; Wait 0 215; On 0 43 90;
   Off 1; Wait 0 35; Off 3; Wait 0 215; On 1 53 90; Wait 0 35; Off 4; Wait 0 215; On 2 55 90; Wait 0 250; On 3 59 90; Wait 0 250; On 4 62 90; Wait 0 35;
   Off 2; Wait 0 215; On 2 55 90; Wait 0 35; Off 3; Wait 0 215; On 3 59 90; Wait 0 35; Off 4; Wait 0 215; On 4 62 90; Wait 0 35; Off 2; Wait 0 215;
   On 0 43 90; Off 1; Wait 0 35; Off 3; Wait 0 215; On 1 53 90; Wait 0 35; Off 4; Wait 0 215; On 2 55 90; Wait 0 250; On 3 59 90; Wait 0 250; On 4 62 90;
   Wait 0 35; Off 2; Wait 0 215; On 2 55 90; Wait 0 35; Off 3; Wait 0 215; On 3 59 90; Wait 0 35; Off 4; Wait 0 215; On 4 62 90; Wait 0 35; Off 2;
   Wait 0 215; On 0 43 90; Off 1; Wait 0 35; Off 3; Wait 0 215; On 1 52 90; Wait 0 35; Off 4; Wait 0 215; On 2 55 90; Wait 0 250; On 3 60 90; Wait 0 250;
   On 4 64 90; Wait 0 35; Off 2; Wait 0 215; On 2 55 90; Wait 0 35; Off 3; Wait 0 215; On 3 60 90; Wait 0 35; Off 4; Wait 0 215; On 4 64 90; Wait 0 35;
   Off 2; Wait 0 215; On 0 43 90; Off 1; Wait 0 35; Off 3; Wait 0 215; On 1 52 90; Wait 0 35; Off 4; Wait 0 215; On 2 55 90; Wait 0 250; On 3 60 90;
   Wait 0 250; On 4 64 90; Wait 0 35; Off 2; Wait 0 215; On 2 55 90; Wait 0 35; Off 3; Wait 0 215; On 3 60 90; Wait 0 35; Off 4; Wait 0 215; On 4 64 90;
   Wait 0 35; Off 2; Wait 0 215; On 0 43 90; Off 1; Wait 0 35; Off 3; Wait 0 215; On 1 50 90; Wait 0 35; Off 4; Wait 0 215; On 2 55 90; Wait 0 250;
   On 3 60 90; Wait 0 250; On 4 65 90; Wait 0 35; Off 2; Wait 0 215; On 2 55 90; Wait 0 35; Off 3; Wait 0 215; On 3 60 90; Wait 0 35; Off 4; Wait 0 215;
   On 4 65 90; Wait 0 35; Off 2; Wait 0 215; On 0 43 90; Off 1; Wait 0 35; Off 3; Wait 0 215; On 1 50 90; Wait 0 35; Off 4; Wait 0 215; On 2 55 90;
   Wait 0 250; On 3 60 90; Wait 0 250; On 4 65 90; Wait 0 35; Off 2; Wait 0 215; On 2 55 90; Wait 0 35; Off 3; Wait 0 215; On 3 60 90; Wait 0 35; Off 4;
   Wait 0 215; On 4 65 90; Wait 0 35; Off 2; Wait 0 215; On 0 43 90; Off 1; Wait 0 35; Off 3; Wait 0 215; On 1 50 90; Wait 0 35; Off 4; Wait 0 215;
   On 2 55 90; Wait 0 250; On 3 59 90; Wait 0 250; On 4 65 90; Wait 0 35; Off 2; Wait 0 215; On 2 55 90; Wait 0 35; Off 3; Wait 0 215; On 3 59 90; Wait 0 35;
   Off 4; Wait 0 215; On 4 65 90; Wait 0 35; Off 2; Wait 0 215; On 0 43 90; Off 1; Wait 0 35; Off 3; Wait 0 215; On 1 50 90; Wait 0 35; Off 4;
   Wait 0 215; On 2 55 90; Wait 0 250; On 3 59 90; Wait 0 250; On 4 65 90; Wait 0 35; Off 2; Wait 0 215; On 2 55 90; Wait 0 35; Off 3; Wait 0 215; On 3 59 90;
   Wait 0 35; Off 4; Wait 0 215; On 4 65 90; Wait 0 35; Off 2; Wait 0 215; On 0 43 90; Off 1; Wait 0 35; Off 3; Wait 0 215; On 1 51 90; Wait 0 35;
   Off 4; Wait 0 215; On 2 57 90; Wait 0 250; On 3 60 90; Wait 0 250; On 4 66 90; Wait 0 35; Off 2; Wait 0 215; On 2 57 90; Wait 0 35; Off 3; Wait 0 215;
   On 3 60 90; Wait 0 35; Off 4; Wait 0 215; On 4 66 90; Wait 0 35; Off 2; Wait 0 215; On 0 43 90; Off 1; Wait 0 35; Off 3; Wait 0 215; On 1 51 90;
   Wait 0 35; Off 4; Wait 0 215; On 2 57 90; Wait 0 250; On 3 60 90; Wait 0 250; On 4 66 90; Wait 0 35; Off 2; Wait 0 215; On 2 57 90; Wait 0 35; Off 3;
   Wait 0 215; On 3 60 90; Wait 0 35; Off 4; Wait 0 215; On 4 66 90; Wait 0 35; Off 2; Wait 0 215; On 0 43 90; Off 1; Wait 0 35; Off 3; Wait 0 215;
   On 1 52 90; Wait 0 35; Off 4; Wait 0 215; On 2 55 90; Wait 0 250; On 3 60 90; Wait 0 250; On 4 67 90; Wait 0 35; Off 2; Wait 0 215; On 2 55 90; Wait 0 35;
   Off 3; Wait 0 215; On 3 60 90; Wait 0 35; Off 4; Wait 0 215; On 4 67 90; Wait 0 35; Off 2; Wait 0 215; On 0 43 90; Off 1; Wait 0 35; Off 3;
   Wait 0 215; On 1 52 90; Wait 0 35; Off 4; Wait 0 215; On 2 55 90; Wait 0 250; On 3 60 90; Wait 0 250; On 4 67 90; Wait 0 35; Off 2; Wait 0 215; On 2 55 90;
   Wait 0 35; Off 3; Wait 0 215; On 3 60 90; Wait 0 35; Off 4; Wait 0 215; On 4 67 90; Wait 0 35; Off 2; Wait 0 215; On 0 43 90; Off 1; Wait 0 35;
   Off 3; Wait 0 215; On 1 50 90; Wait 0 35; Off 4; Wait 0 215; On 2 55 90; Wait 0 250; On 3 60 90; Wait 0 250; On 4 65 90; Wait 0 35; Off 2; Wait 0 215;
   On 2 55 90; Wait 0 35; Off 3; Wait 0 215; On 3 60 90; Wait 0 35; Off 4; Wait 0 215; On 4 65 90; Wait 0 35; Off 2; Wait 0 215; On 0 43 90; Off 1;
   Wait 0 35; Off 3; Wait 0 215; On 1 50 90; Wait 0 35; Off 4; Wait 0 215; On 2 55 90; Wait 0 250; On 3 60 90; Wait 0 250; On 4 65 90; Wait 0 35; Off 2;
   Wait 0 215; On 2 55 90; Wait 0 35; Off 3; Wait 0 215; On 3 60 90; Wait 0 35; Off 4; Wait 0 215; On 4 65 90; Wait 0 35; Off 2; Wait 0 215; On 0 43 90;
   Off 1; Wait 0 35; Off 3; Wait 0 215; On 1 50 90; Wait 0 35; Off 4; Wait 0 215; On 2 55 90; Wait 0 250; On 3 59 90; Wait 0 250; On 4 65 90; Wait 0 35;
   Off 2; Wait 0 215; On 2 55 90; Wait 0 35; Off 3; Wait 0 215; On 3 59 90; Wait 0 35; Off 4; Wait 0 215; On 4 65 90; Wait 0 35; Off 2; Wait 0 215;
   On 0 43 90; Off 1; Wait 0 35; Off 3; Wait 0 215; On 1 50 90; Wait 0 35; Off 4; Wait 0 215; On 2 55 90; Wait 0 250; On 3 59 90; Wait 0 250; On 4 65 90;
   Wait 0 35; Off 2; Wait 0 215; On 2 55 90; Wait 0 35; Off 3; Wait 0 215; On 3 59 90; Wait 0 35; Off 4; Wait 0 215; On 4 65 90; Wait 0 35; Off 2;
   Wait 0 215; On 0 36 90; Off 1; Wait 0 35; Off 3; Wait 0 215; On 1 48 90; Wait 0 35; Off 4; Wait 0 215; On 2 55 90; Wait 0 250; On 3 58 90; Wait 0 250;
   On 4 64 90; Wait 0 35; Off 2; Wait 0 215; On 2 55 90; Wait 0 35; Off 3; Wait 0 215; On 3 58 90; Wait 0 35; Off 4; Wait 0 215; On 4 64 90; Wait 0 35;
   Off 2; Wait 0 215; On 0 36 90; Off 1; Wait 0 35; Off 3; Wait 0 215; On 1 48 90; Wait 0 35; Off 4; Wait 0 215; On 2 55 90; Wait 0 250; On 3 58 90;
   Wait 0 250; On 4 64 90; Wait 0 35; Off 2; Wait 0 215; On 2 55 90; Wait 0 35; Off 3; Wait 0 215; On 3 58 90; Wait 0 35; Off 4; Wait 0 215; On 4 64 90;
   Wait 0 35; Off 2; Wait 0 215; On 0 36 90; Off 1; Wait 0 34; Off 3; Wait 0 216; On 1 48 90; Wait 0 34; Off 4; Wait 0 216; On 2 53 90; Wait 0 250;
   On 3 57 90; Wait 0 250; On 4 60 90; Wait 0 34; Off 2; Wait 0 216; On 2 65 90; Wait 0 34; Off 3; Wait 0 201; Off 4; Wait 0 15; On 3 60 90; Wait 0 250;
   On 4 57 90; Wait 0 34; Off 2; Wait 0 190; Off 3; Wait 0 26; On 2 60 90; Wait 0 233; Off 4; Wait 0 17; On 3 57 90; Wait 0 250; On 4 53 90; Wait 0 34;
   Off 2; Wait 0 199; Off 3; Wait 0 17; On 2 57 90; Wait 0 217; Off 4; Wait 0 31; On 3 53 90; Wait 0 252; On 4 50 90; Wait 0 34; Off 2; Wait 0 180;
   Off 3; Wait 0 36; On 2 53 90; Wait 0 221; Off 4; Wait 0 29; On 3 50 90; Wait 0 250; On 0 36 90; Off 1; Wait 0 34; Off 2; Wait 0 216; On 1 47 90;
   Wait 0 34; Off 3; Wait 0 216; On 2 67 90; Wait 0 250; On 3 71 90; Wait 0 250; On 4 74 90; Wait 0 34; Off 2; Wait 0 216; On 2 77 90; Wait 0 34; Off 3;
   Wait 0 190; Off 4; Wait 0 26; On 3 74 90; Wait 0 250; On 4 71 90; Wait 0 34; Off 2; Wait 0 167; Off 3; Wait 0 49; On 2 74 90; Wait 0 230; Off 4;
   Wait 0 20; On 3 71 90; Wait 0 250; On 4 67 90; Wait 0 34; Off 2; Wait 0 180; Off 3; Wait 0 36; On 2 71 90; Wait 0 250; On 3 62 90; Wait 0 34; Off 4;
   Wait 0 216; On 4 65 90; Wait 0 34; Off 2; Wait 0 216; On 2 64 90; Wait 0 34; Off 3; Wait 0 216; On 3 62 90; Wait 0 34; Off 4; Wait 0 162; Off 2;
   Wait 0 54; On 0 48 90; On 1 36 90; On 2 64 90; On 4 67 90; On 5 72 90; Wait 1 28; Off 3; Wait 14 130; Off 0; Off 1; Wait 1 28; Off 2; Off 4;
   Off 5].

Definition event_okb (e : event) : bool :=
  match e with
  | Wait hi lo => (0 <=? hi) && (hi <? 128) && (0 <=? lo) && (lo <? 256)
  | On ch note velocity => (0 <=? ch) && (ch <? 8) && (0 <=? note) && (note <? 256) && (0 <=? velocity) && (velocity <? 128)
  | Off ch => (0 <=? ch) && (ch <? 8)
  end.
Lemma event_okb_ok : forall e, event_okb e = true -> event_ok e.
Proof. intros [hi lo|ch note v|ch] H; cbn [event_okb event_ok] in *; rewrite !andb_true_iff, ?Z.leb_le, ?Z.ltb_lt in H; lia. Qed.
Lemma events_okb_ok : forall l, forallb event_okb l = true -> Forall event_ok l.
Proof. intros l H. rewrite forallb_forall in H. apply Forall_forall. intros e I. apply event_okb_ok. auto. Qed.

Lemma prelude_is : prelude_bytes = score_bytes prelude_events 0 [].
Proof. vm_compute. reflexivity. Qed.
Lemma prelude_ok : Forall event_ok prelude_events.
Proof. apply events_okb_ok. vm_compute. reflexivity. Qed.
