(** Model of tables.hpp. *)
From Verif Require Import Base.

(** tables.hpp:7-61 [select_in_byte], the 2048 entries verbatim. *)
Definition select_in_byte : list Z :=
  [
   8; 0; 1; 0; 2; 0; 1; 0; 3; 0; 1; 0; 2; 0; 1; 0; 4; 0; 1; 0; 2; 0; 1; 0; 3; 0; 1; 0; 2; 0; 1; 0;
   5; 0; 1; 0; 2; 0; 1; 0; 3; 0; 1; 0; 2; 0; 1; 0; 4; 0; 1; 0; 2; 0; 1; 0; 3; 0; 1; 0; 2; 0; 1; 0;
   6; 0; 1; 0; 2; 0; 1; 0; 3; 0; 1; 0; 2; 0; 1; 0; 4; 0; 1; 0; 2; 0; 1; 0; 3; 0; 1; 0; 2; 0; 1; 0;
   5; 0; 1; 0; 2; 0; 1; 0; 3; 0; 1; 0; 2; 0; 1; 0; 4; 0; 1; 0; 2; 0; 1; 0; 3; 0; 1; 0; 2; 0; 1; 0;
   7; 0; 1; 0; 2; 0; 1; 0; 3; 0; 1; 0; 2; 0; 1; 0; 4; 0; 1; 0; 2; 0; 1; 0; 3; 0; 1; 0; 2; 0; 1; 0;
   5; 0; 1; 0; 2; 0; 1; 0; 3; 0; 1; 0; 2; 0; 1; 0; 4; 0; 1; 0; 2; 0; 1; 0; 3; 0; 1; 0; 2; 0; 1; 0;
   6; 0; 1; 0; 2; 0; 1; 0; 3; 0; 1; 0; 2; 0; 1; 0; 4; 0; 1; 0; 2; 0; 1; 0; 3; 0; 1; 0; 2; 0; 1; 0;
   5; 0; 1; 0; 2; 0; 1; 0; 3; 0; 1; 0; 2; 0; 1; 0; 4; 0; 1; 0; 2; 0; 1; 0; 3; 0; 1; 0; 2; 0; 1; 0;
   8; 8; 8; 1; 8; 2; 2; 1; 8; 3; 3; 1; 3; 2; 2; 1; 8; 4; 4; 1; 4; 2; 2; 1; 4; 3; 3; 1; 3; 2; 2; 1;
   8; 5; 5; 1; 5; 2; 2; 1; 5; 3; 3; 1; 3; 2; 2; 1; 5; 4; 4; 1; 4; 2; 2; 1; 4; 3; 3; 1; 3; 2; 2; 1;
   8; 6; 6; 1; 6; 2; 2; 1; 6; 3; 3; 1; 3; 2; 2; 1; 6; 4; 4; 1; 4; 2; 2; 1; 4; 3; 3; 1; 3; 2; 2; 1;
   6; 5; 5; 1; 5; 2; 2; 1; 5; 3; 3; 1; 3; 2; 2; 1; 5; 4; 4; 1; 4; 2; 2; 1; 4; 3; 3; 1; 3; 2; 2; 1;
   8; 7; 7; 1; 7; 2; 2; 1; 7; 3; 3; 1; 3; 2; 2; 1; 7; 4; 4; 1; 4; 2; 2; 1; 4; 3; 3; 1; 3; 2; 2; 1;
   7; 5; 5; 1; 5; 2; 2; 1; 5; 3; 3; 1; 3; 2; 2; 1; 5; 4; 4; 1; 4; 2; 2; 1; 4; 3; 3; 1; 3; 2; 2; 1;
   7; 6; 6; 1; 6; 2; 2; 1; 6; 3; 3; 1; 3; 2; 2; 1; 6; 4; 4; 1; 4; 2; 2; 1; 4; 3; 3; 1; 3; 2; 2; 1;
   6; 5; 5; 1; 5; 2; 2; 1; 5; 3; 3; 1; 3; 2; 2; 1; 5; 4; 4; 1; 4; 2; 2; 1; 4; 3; 3; 1; 3; 2; 2; 1;
   8; 8; 8; 8; 8; 8; 8; 2; 8; 8; 8; 3; 8; 3; 3; 2; 8; 8; 8; 4; 8; 4; 4; 2; 8; 4; 4; 3; 4; 3; 3; 2;
   8; 8; 8; 5; 8; 5; 5; 2; 8; 5; 5; 3; 5; 3; 3; 2; 8; 5; 5; 4; 5; 4; 4; 2; 5; 4; 4; 3; 4; 3; 3; 2;
   8; 8; 8; 6; 8; 6; 6; 2; 8; 6; 6; 3; 6; 3; 3; 2; 8; 6; 6; 4; 6; 4; 4; 2; 6; 4; 4; 3; 4; 3; 3; 2;
   8; 6; 6; 5; 6; 5; 5; 2; 6; 5; 5; 3; 5; 3; 3; 2; 6; 5; 5; 4; 5; 4; 4; 2; 5; 4; 4; 3; 4; 3; 3; 2;
   8; 8; 8; 7; 8; 7; 7; 2; 8; 7; 7; 3; 7; 3; 3; 2; 8; 7; 7; 4; 7; 4; 4; 2; 7; 4; 4; 3; 4; 3; 3; 2;
   8; 7; 7; 5; 7; 5; 5; 2; 7; 5; 5; 3; 5; 3; 3; 2; 7; 5; 5; 4; 5; 4; 4; 2; 5; 4; 4; 3; 4; 3; 3; 2;
   8; 7; 7; 6; 7; 6; 6; 2; 7; 6; 6; 3; 6; 3; 3; 2; 7; 6; 6; 4; 6; 4; 4; 2; 6; 4; 4; 3; 4; 3; 3; 2;
   7; 6; 6; 5; 6; 5; 5; 2; 6; 5; 5; 3; 5; 3; 3; 2; 6; 5; 5; 4; 5; 4; 4; 2; 5; 4; 4; 3; 4; 3; 3; 2;
   8; 8; 8; 8; 8; 8; 8; 8; 8; 8; 8; 8; 8; 8; 8; 3; 8; 8; 8; 8; 8; 8; 8; 4; 8; 8; 8; 4; 8; 4; 4; 3;
   8; 8; 8; 8; 8; 8; 8; 5; 8; 8; 8; 5; 8; 5; 5; 3; 8; 8; 8; 5; 8; 5; 5; 4; 8; 5; 5; 4; 5; 4; 4; 3;
   8; 8; 8; 8; 8; 8; 8; 6; 8; 8; 8; 6; 8; 6; 6; 3; 8; 8; 8; 6; 8; 6; 6; 4; 8; 6; 6; 4; 6; 4; 4; 3;
   8; 8; 8; 6; 8; 6; 6; 5; 8; 6; 6; 5; 6; 5; 5; 3; 8; 6; 6; 5; 6; 5; 5; 4; 6; 5; 5; 4; 5; 4; 4; 3;
   8; 8; 8; 8; 8; 8; 8; 7; 8; 8; 8; 7; 8; 7; 7; 3; 8; 8; 8; 7; 8; 7; 7; 4; 8; 7; 7; 4; 7; 4; 4; 3;
   8; 8; 8; 7; 8; 7; 7; 5; 8; 7; 7; 5; 7; 5; 5; 3; 8; 7; 7; 5; 7; 5; 5; 4; 7; 5; 5; 4; 5; 4; 4; 3;
   8; 8; 8; 7; 8; 7; 7; 6; 8; 7; 7; 6; 7; 6; 6; 3; 8; 7; 7; 6; 7; 6; 6; 4; 7; 6; 6; 4; 6; 4; 4; 3;
   8; 7; 7; 6; 7; 6; 6; 5; 7; 6; 6; 5; 6; 5; 5; 3; 7; 6; 6; 5; 6; 5; 5; 4; 6; 5; 5; 4; 5; 4; 4; 3;
   8; 8; 8; 8; 8; 8; 8; 8; 8; 8; 8; 8; 8; 8; 8; 8; 8; 8; 8; 8; 8; 8; 8; 8; 8; 8; 8; 8; 8; 8; 8; 4;
   8; 8; 8; 8; 8; 8; 8; 8; 8; 8; 8; 8; 8; 8; 8; 5; 8; 8; 8; 8; 8; 8; 8; 5; 8; 8; 8; 5; 8; 5; 5; 4;
   8; 8; 8; 8; 8; 8; 8; 8; 8; 8; 8; 8; 8; 8; 8; 6; 8; 8; 8; 8; 8; 8; 8; 6; 8; 8; 8; 6; 8; 6; 6; 4;
   8; 8; 8; 8; 8; 8; 8; 6; 8; 8; 8; 6; 8; 6; 6; 5; 8; 8; 8; 6; 8; 6; 6; 5; 8; 6; 6; 5; 6; 5; 5; 4;
   8; 8; 8; 8; 8; 8; 8; 8; 8; 8; 8; 8; 8; 8; 8; 7; 8; 8; 8; 8; 8; 8; 8; 7; 8; 8; 8; 7; 8; 7; 7; 4;
   8; 8; 8; 8; 8; 8; 8; 7; 8; 8; 8; 7; 8; 7; 7; 5; 8; 8; 8; 7; 8; 7; 7; 5; 8; 7; 7; 5; 7; 5; 5; 4;
   8; 8; 8; 8; 8; 8; 8; 7; 8; 8; 8; 7; 8; 7; 7; 6; 8; 8; 8; 7; 8; 7; 7; 6; 8; 7; 7; 6; 7; 6; 6; 4;
   8; 8; 8; 7; 8; 7; 7; 6; 8; 7; 7; 6; 7; 6; 6; 5; 8; 7; 7; 6; 7; 6; 6; 5; 7; 6; 6; 5; 6; 5; 5; 4;
   8; 8; 8; 8; 8; 8; 8; 8; 8; 8; 8; 8; 8; 8; 8; 8; 8; 8; 8; 8; 8; 8; 8; 8; 8; 8; 8; 8; 8; 8; 8; 8;
   8; 8; 8; 8; 8; 8; 8; 8; 8; 8; 8; 8; 8; 8; 8; 8; 8; 8; 8; 8; 8; 8; 8; 8; 8; 8; 8; 8; 8; 8; 8; 5;
   8; 8; 8; 8; 8; 8; 8; 8; 8; 8; 8; 8; 8; 8; 8; 8; 8; 8; 8; 8; 8; 8; 8; 8; 8; 8; 8; 8; 8; 8; 8; 6;
   8; 8; 8; 8; 8; 8; 8; 8; 8; 8; 8; 8; 8; 8; 8; 6; 8; 8; 8; 8; 8; 8; 8; 6; 8; 8; 8; 6; 8; 6; 6; 5;
   8; 8; 8; 8; 8; 8; 8; 8; 8; 8; 8; 8; 8; 8; 8; 8; 8; 8; 8; 8; 8; 8; 8; 8; 8; 8; 8; 8; 8; 8; 8; 7;
   8; 8; 8; 8; 8; 8; 8; 8; 8; 8; 8; 8; 8; 8; 8; 7; 8; 8; 8; 8; 8; 8; 8; 7; 8; 8; 8; 7; 8; 7; 7; 5;
   8; 8; 8; 8; 8; 8; 8; 8; 8; 8; 8; 8; 8; 8; 8; 7; 8; 8; 8; 8; 8; 8; 8; 7; 8; 8; 8; 7; 8; 7; 7; 6;
   8; 8; 8; 8; 8; 8; 8; 7; 8; 8; 8; 7; 8; 7; 7; 6; 8; 8; 8; 7; 8; 7; 7; 6; 8; 7; 7; 6; 7; 6; 6; 5;
   8; 8; 8; 8; 8; 8; 8; 8; 8; 8; 8; 8; 8; 8; 8; 8; 8; 8; 8; 8; 8; 8; 8; 8; 8; 8; 8; 8; 8; 8; 8; 8;
   8; 8; 8; 8; 8; 8; 8; 8; 8; 8; 8; 8; 8; 8; 8; 8; 8; 8; 8; 8; 8; 8; 8; 8; 8; 8; 8; 8; 8; 8; 8; 8;
   8; 8; 8; 8; 8; 8; 8; 8; 8; 8; 8; 8; 8; 8; 8; 8; 8; 8; 8; 8; 8; 8; 8; 8; 8; 8; 8; 8; 8; 8; 8; 8;
   8; 8; 8; 8; 8; 8; 8; 8; 8; 8; 8; 8; 8; 8; 8; 8; 8; 8; 8; 8; 8; 8; 8; 8; 8; 8; 8; 8; 8; 8; 8; 6;
   8; 8; 8; 8; 8; 8; 8; 8; 8; 8; 8; 8; 8; 8; 8; 8; 8; 8; 8; 8; 8; 8; 8; 8; 8; 8; 8; 8; 8; 8; 8; 8;
   8; 8; 8; 8; 8; 8; 8; 8; 8; 8; 8; 8; 8; 8; 8; 8; 8; 8; 8; 8; 8; 8; 8; 8; 8; 8; 8; 8; 8; 8; 8; 7;
   8; 8; 8; 8; 8; 8; 8; 8; 8; 8; 8; 8; 8; 8; 8; 8; 8; 8; 8; 8; 8; 8; 8; 8; 8; 8; 8; 8; 8; 8; 8; 7;
   8; 8; 8; 8; 8; 8; 8; 8; 8; 8; 8; 8; 8; 8; 8; 7; 8; 8; 8; 8; 8; 8; 8; 7; 8; 8; 8; 7; 8; 7; 7; 6;
   8; 8; 8; 8; 8; 8; 8; 8; 8; 8; 8; 8; 8; 8; 8; 8; 8; 8; 8; 8; 8; 8; 8; 8; 8; 8; 8; 8; 8; 8; 8; 8;
   8; 8; 8; 8; 8; 8; 8; 8; 8; 8; 8; 8; 8; 8; 8; 8; 8; 8; 8; 8; 8; 8; 8; 8; 8; 8; 8; 8; 8; 8; 8; 8;
   8; 8; 8; 8; 8; 8; 8; 8; 8; 8; 8; 8; 8; 8; 8; 8; 8; 8; 8; 8; 8; 8; 8; 8; 8; 8; 8; 8; 8; 8; 8; 8;
   8; 8; 8; 8; 8; 8; 8; 8; 8; 8; 8; 8; 8; 8; 8; 8; 8; 8; 8; 8; 8; 8; 8; 8; 8; 8; 8; 8; 8; 8; 8; 8;
   8; 8; 8; 8; 8; 8; 8; 8; 8; 8; 8; 8; 8; 8; 8; 8; 8; 8; 8; 8; 8; 8; 8; 8; 8; 8; 8; 8; 8; 8; 8; 8;
   8; 8; 8; 8; 8; 8; 8; 8; 8; 8; 8; 8; 8; 8; 8; 8; 8; 8; 8; 8; 8; 8; 8; 8; 8; 8; 8; 8; 8; 8; 8; 8;
   8; 8; 8; 8; 8; 8; 8; 8; 8; 8; 8; 8; 8; 8; 8; 8; 8; 8; 8; 8; 8; 8; 8; 8; 8; 8; 8; 8; 8; 8; 8; 8;
   8; 8; 8; 8; 8; 8; 8; 8; 8; 8; 8; 8; 8; 8; 8; 8; 8; 8; 8; 8; 8; 8; 8; 8; 8; 8; 8; 8; 8; 8; 8; 7 ].
